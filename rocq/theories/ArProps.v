(* Archives: properties C24, C25, C26 and C54. *)
From Verif Require Import Base LebModel ElfErr HashModel HashSpec HashProof DwModel SegProof Slice CfiSafe ArModel ArSpec ArProof Ar2Proof Ar3Proof Ar4Proof.
Require Import ZArith List Lia Bool ZifyBool. Import ListNotations. Open Scope Z_scope.

(* ---- images used in the examples ---- *)
Definition h_idx : bytes := [47; 32; 32; 32; 32; 32; 32; 32; 32; 32; 32; 32; 32; 32; 32; 32; 55; 32; 32; 32; 32; 32; 32; 32; 32; 32; 32; 32; 49; 32; 32; 32; 32; 32; 50; 32; 32; 32; 32; 32; 54; 52; 52; 32; 32; 32; 32; 32; 49; 48; 32; 32; 32; 32; 32; 32; 32; 32; 96; 10].
Definition h_tab : bytes := [47; 47; 32; 32; 32; 32; 32; 32; 32; 32; 32; 32; 32; 32; 32; 32; 55; 32; 32; 32; 32; 32; 32; 32; 32; 32; 32; 32; 49; 32; 32; 32; 32; 32; 50; 32; 32; 32; 32; 32; 54; 52; 52; 32; 32; 32; 32; 32; 50; 51; 32; 32; 32; 32; 32; 32; 32; 32; 96; 10].
Definition h_a : bytes := [97; 46; 111; 47; 32; 32; 32; 32; 32; 32; 32; 32; 32; 32; 32; 32; 55; 32; 32; 32; 32; 32; 32; 32; 32; 32; 32; 32; 49; 32; 32; 32; 32; 32; 50; 32; 32; 32; 32; 32; 54; 52; 52; 32; 32; 32; 32; 32; 51; 32; 32; 32; 32; 32; 32; 32; 32; 32; 96; 10].
Definition h_long : bytes := [47; 51; 32; 32; 32; 32; 32; 32; 32; 32; 32; 32; 32; 32; 32; 32; 55; 32; 32; 32; 32; 32; 32; 32; 32; 32; 32; 32; 49; 32; 32; 32; 32; 32; 50; 32; 32; 32; 32; 32; 54; 52; 52; 32; 32; 32; 32; 32; 49; 32; 32; 32; 32; 32; 32; 32; 32; 32; 96; 10].
Definition d_idx : bytes := [0; 0; 0; 1; 0; 0; 0; 68; 102; 0].
Definition d_tab : bytes := [120; 121; 47; 97; 118; 101; 114; 121; 108; 111; 110; 103; 110; 97; 109; 101; 49; 50; 51; 52; 46; 111; 47].
Definition d_a : bytes := [97; 98; 99].
Definition d_long : bytes := [90].
Definition i_loop : bytes := [33; 60; 97; 114; 99; 104; 62; 10; 47; 48; 32; 32; 32; 32; 32; 32; 32; 32; 32; 32; 32; 32; 32; 32; 55; 32; 32; 32; 32; 32; 32; 32; 32; 32; 32; 32; 49; 32; 32; 32; 32; 32; 50; 32; 32; 32; 32; 32; 54; 52; 52; 32; 32; 32; 32; 32; 45; 54; 48; 32; 32; 32; 32; 32; 32; 32; 96; 10].
Definition i_over : bytes := [33; 60; 97; 114; 99; 104; 62; 10; 47; 48; 32; 32; 32; 32; 32; 32; 32; 32; 32; 32; 32; 32; 32; 32; 55; 32; 32; 32; 32; 32; 32; 32; 32; 32; 32; 32; 49; 32; 32; 32; 32; 32; 50; 32; 32; 32; 32; 32; 54; 52; 52; 32; 32; 32; 32; 32; 48; 32; 32; 32; 32; 32; 32; 32; 32; 32; 96; 10; 49; 49; 49; 49; 49; 49; 49; 49; 49; 49; 49; 49; 49; 49; 49; 49; 49; 49; 49; 49; 49; 49; 49; 49; 49; 49; 49; 49; 49; 49; 49; 49; 49; 49; 49; 49; 49; 49; 49; 49; 49; 49; 49; 49; 49; 49; 49; 49; 49; 49; 49; 49; 49; 49; 49; 49; 49; 49; 49; 49].
Definition i_retry : bytes := [33; 60; 97; 114; 99; 104; 62; 10; 97; 47; 32; 32; 32; 32; 32; 32; 32; 32; 32; 32; 32; 32; 32; 32; 55; 32; 32; 32; 32; 32; 32; 32; 32; 32; 32; 32; 49; 32; 32; 32; 32; 32; 50; 32; 32; 32; 32; 32; 54; 52; 52; 32; 32; 32; 32; 32; 45; 49; 32; 32; 32; 32; 32; 32; 32; 32; 96; 10].
Definition i_retry2 : bytes := [33; 60; 97; 114; 99; 104; 62; 10; 97; 47; 32; 32; 32; 32; 32; 32; 32; 32; 32; 32; 32; 32; 32; 32; 55; 32; 32; 32; 32; 32; 32; 32; 32; 32; 32; 32; 49; 32; 32; 32; 32; 32; 50; 32; 32; 32; 32; 32; 54; 52; 52; 32; 32; 32; 32; 32; 45; 50; 32; 32; 32; 32; 32; 32; 32; 32; 96; 10].
Definition i_inner_then : bytes := [33; 60; 97; 114; 99; 104; 62; 10; 97; 47; 32; 32; 32; 32; 32; 32; 32; 32; 32; 32; 32; 32; 32; 32; 55; 32; 32; 32; 32; 32; 32; 32; 32; 32; 32; 32; 49; 32; 32; 32; 32; 32; 50; 32; 32; 32; 32; 32; 54; 52; 52; 32; 32; 32; 32; 32; 50; 32; 32; 32; 32; 32; 32; 32; 32; 32; 96; 10; 113; 113; 98; 47; 32; 32; 32; 32; 32; 32; 32; 32; 32; 32; 32; 32; 32; 32; 55; 32; 32; 32; 32; 32; 32; 32; 32; 32; 32; 32; 49; 32; 32; 32; 32; 32; 50; 32; 32; 32; 32; 32; 54; 52; 52; 32; 32; 32; 32; 32; 57; 57; 57; 57; 57; 57; 32; 32; 32; 32; 96; 10].
Definition i_outer : bytes := [33; 60; 97; 114; 99; 104; 62; 10; 105; 110; 47; 32; 32; 32; 32; 32; 32; 32; 32; 32; 32; 32; 32; 32; 55; 32; 32; 32; 32; 32; 32; 32; 32; 32; 32; 32; 49; 32; 32; 32; 32; 32; 50; 32; 32; 32; 32; 32; 54; 52; 52; 32; 32; 32; 32; 32; 49; 53; 48; 32; 32; 32; 32; 32; 32; 32; 96; 10; 33; 60; 97; 114; 99; 104; 62; 10; 47; 47; 32; 32; 32; 32; 32; 32; 32; 32; 32; 32; 32; 32; 32; 32; 55; 32; 32; 32; 32; 32; 32; 32; 32; 32; 32; 32; 49; 32; 32; 32; 32; 32; 50; 32; 32; 32; 32; 32; 54; 52; 52; 32; 32; 32; 32; 32; 50; 48; 32; 32; 32; 32; 32; 32; 32; 32; 96; 10; 97; 50; 51; 52; 53; 54; 55; 56; 57; 48; 49; 50; 51; 52; 53; 54; 55; 56; 47; 10; 47; 48; 32; 32; 32; 32; 32; 32; 32; 32; 32; 32; 32; 32; 32; 32; 55; 32; 32; 32; 32; 32; 32; 32; 32; 32; 32; 32; 49; 32; 32; 32; 32; 32; 50; 32; 32; 32; 32; 32; 54; 52; 52; 32; 32; 32; 32; 32; 50; 32; 32; 32; 32; 32; 32; 32; 32; 32; 96; 10; 113; 113].
Definition i_slash : bytes := [33; 60; 97; 114; 99; 104; 62; 10; 47; 47; 32; 32; 32; 32; 32; 32; 32; 32; 32; 32; 32; 32; 32; 32; 55; 32; 32; 32; 32; 32; 32; 32; 32; 32; 32; 32; 49; 32; 32; 32; 32; 32; 50; 32; 32; 32; 32; 32; 54; 52; 52; 32; 32; 32; 32; 32; 50; 48; 32; 32; 32; 32; 32; 32; 32; 32; 96; 10; 100; 105; 114; 47; 102; 105; 108; 101; 49; 50; 51; 52; 53; 54; 55; 56; 46; 111; 47; 10; 47; 48; 32; 32; 32; 32; 32; 32; 32; 32; 32; 32; 32; 32; 32; 32; 55; 32; 32; 32; 32; 32; 32; 32; 32; 32; 32; 32; 49; 32; 32; 32; 32; 32; 50; 32; 32; 32; 32; 32; 54; 52; 52; 32; 32; 32; 32; 32; 50; 32; 32; 32; 32; 32; 32; 32; 32; 32; 96; 10; 113; 113].
Definition i_mode : bytes := [33; 60; 97; 114; 99; 104; 62; 10; 97; 47; 32; 32; 32; 32; 32; 32; 32; 32; 32; 32; 32; 32; 32; 32; 55; 32; 32; 32; 32; 32; 32; 32; 32; 32; 32; 32; 49; 32; 32; 32; 32; 32; 50; 32; 32; 32; 32; 32; 49; 48; 48; 54; 52; 52; 32; 32; 50; 32; 32; 32; 32; 32; 32; 32; 32; 32; 96; 10; 113; 113].
Definition i_oob : bytes := [33; 60; 97; 114; 99; 104; 62; 10; 47; 32; 32; 32; 32; 32; 32; 32; 32; 32; 32; 32; 32; 32; 32; 32; 55; 32; 32; 32; 32; 32; 32; 32; 32; 32; 32; 32; 49; 32; 32; 32; 32; 32; 50; 32; 32; 32; 32; 32; 54; 52; 52; 32; 32; 32; 32; 32; 56; 32; 32; 32; 32; 32; 32; 32; 32; 32; 96; 10; 0; 0; 0; 1; 0; 0; 0; 68].
Definition i_last : bytes := [33; 60; 97; 114; 99; 104; 62; 10; 47; 32; 32; 32; 32; 32; 32; 32; 32; 32; 32; 32; 32; 32; 32; 32; 55; 32; 32; 32; 32; 32; 32; 32; 32; 32; 32; 32; 49; 32; 32; 32; 32; 32; 50; 32; 32; 32; 32; 32; 54; 52; 52; 32; 32; 32; 32; 32; 49; 48; 32; 32; 32; 32; 32; 32; 32; 32; 96; 10; 0; 0; 0; 1; 0; 0; 0; 68; 102; 0].
Definition whole (mapped : bool) (b : bytes) : arc := Arc b mapped 0 (zlen b).
Definition m_idx : member := Member (padded [47]) 7 1 2 [54; 52; 52; 32; 32; 32; 32; 32] d_idx.
Definition m_tab : member := Member (padded [47; 47]) 7 1 2 [54; 52; 52; 32; 32; 32; 32; 32] d_tab.
Definition m_a : member := Member (padded [97; 46; 111; 47]) 7 1 2 [54; 52; 52; 32; 32; 32; 32; 32] d_a.
Definition m_long : member := Member (padded [47; 51]) 7 1 2 [54; 52; 52; 32; 32; 32; 32; 32] d_long.
Definition e_ms : list member := [m_idx; m_tab; m_a; m_long].
Definition e_body : bytes := h_idx ++ d_idx ++ [] ++ h_tab ++ d_tab ++ [10] ++ h_a ++ d_a ++ [10] ++ h_long ++ d_long.
Definition long_name : bytes := [97; 118; 101; 114; 121; 108; 111; 110; 103; 110; 97; 109; 101; 49; 50; 51; 52; 46; 111].
Definition e_names : list bytes := [[47]; [47; 47]; [97; 46; 111]; long_name].
Ltac fld v ds k := exists ds, k; split; [discriminate|]; split; [repeat constructor; unfold digit; lia|]; split; [reflexivity|]; split; [reflexivity|reflexivity].
Lemma e_members : members e_ms e_body.
Proof.
  assert (MD : exists ds k, ds <> [] /\ Forall digit ds /\ [54; 52; 52; 32; 32; 32; 32; 32] = ds ++ repeat 32 k) by (exists [54; 52; 52], 5%nat; split; [discriminate|]; split; [repeat constructor; unfold digit; lia|reflexivity]).
  assert (D : field 12 7 ([55] ++ repeat 32 11)) by fld 7 [55] 11%nat. assert (U : field 6 1 ([49] ++ repeat 32 5)) by fld 1 [49] 5%nat. assert (G : field 6 2 ([50] ++ repeat 32 5)) by fld 2 [50] 5%nat.
  unfold e_ms, e_body. apply M_cons; [|reflexivity|apply M_cons; [|reflexivity|apply M_cons; [|reflexivity|apply M_last]]].
  all: (exists ([55] ++ repeat 32 11), ([49] ++ repeat 32 5), ([50] ++ repeat 32 5)).
  - exists ([49; 48] ++ repeat 32 8). split; [reflexivity|]. split; [reflexivity|]. split; [exact D|]. split; [exact U|]. split; [exact G|]. split; [fld 10 [49; 48] 8%nat|]. split; [exact MD|reflexivity].
  - exists ([50; 51] ++ repeat 32 8). split; [reflexivity|]. split; [reflexivity|]. split; [exact D|]. split; [exact U|]. split; [exact G|]. split; [fld 23 [50; 51] 8%nat|]. split; [exact MD|reflexivity].
  - exists ([51] ++ repeat 32 9). split; [reflexivity|]. split; [reflexivity|]. split; [exact D|]. split; [exact U|]. split; [exact G|]. split; [fld 3 [51] 9%nat|]. split; [exact MD|reflexivity].
  - exists ([49] ++ repeat 32 9). split; [reflexivity|]. split; [reflexivity|]. split; [exact D|]. split; [exact U|]. split; [exact G|]. split; [fld 1 [49] 9%nat|]. split; [exact MD|reflexivity].
Qed.
Lemma plain_list : forall l, forallb (fun x => negb (x =? 47) && negb (x =? 0)) l = true -> Forall plain l.
Proof. intros l H. apply Forall_forall. intros x X. pose proof (proj1 (forallb_forall _ _) H x X). unfold plain. lia. Qed.
Lemma e_named : Forall2 (fun m n => named (table e_ms) (m_name m) n) e_ms e_names.
Proof.
  unfold e_ms, e_names. repeat constructor.
  - apply (N_short (table e_ms) [97; 46; 111]); [discriminate|apply plain_list; reflexivity|cbn; lia].
  - apply (N_long (table e_ms) d_tab [120; 121; 47] long_name [] [51]); [reflexivity|discriminate|repeat constructor; unfold digit; lia|cbn; lia|reflexivity|reflexivity|apply plain_list; reflexivity].
Qed.
Lemma ok_whole : forall mp b, 8 <= zlen b < two63 - 1 -> arc_ok (whole mp b).
Proof. intros mp b L. unfold arc_ok, whole. cbn [r_so r_mx r_mem r_mapped]. lia. Qed.

(* ------------------------------------------------------------------ *)
(* C24 *)
(* A member handed out by elf_begin lies in the archive, whatever elf_next, elf_rand, elf_begin and
   elf_getarhdr were called before, as long as the calls of elf_begin and elf_getarhdr succeeded
   and the table of long names can be searched. *)
Theorem C24_inside_partial : forall fuel r x s, arc_ok r -> read_long_names fuel r = Ok x -> reach fuel r s ->
  exists m s', ar_begin fuel r s = Ok (m, s') /\ match m with None => True | Some (p, n) => 60 <= p /\ 0 <= n /\ p + n <= r_so r + r_mx r end.
Proof.
  intros fuel r x s OK RL R. pose proof (reach_inv fuel r s OK (ex_intro _ x RL) R) as I. destruct (begin_safe fuel r s OK I) as (m & s' & E & T & LO & M). exists m, s'. split; [exact E|]. destruct m as [[p n]|]; [|exact Logic.I]. destruct M as ((V1 & V2 & V3 & V4) & -> & ->). unfold ends in V4. lia.
Qed.
Print Assumptions C24_inside_partial.
(* The loop over an archive ends, and gives members inside the archive, one after the other. *)
Theorem C24_walk_partial : forall r, arc_ok r -> chained r 8 -> exists l s', ar_walk (S (length (r_mem r))) (S (length (r_mem r))) r (ar_open r) = Ok (l, s') /\
  (forall p n h, In (p, n, h) l -> r_so r + 68 <= p /\ 0 <= n /\ p + n <= r_so r + r_mx r) /\
  (forall i j p n h p' n' h', (i < j)%nat -> nth_error l i = Some (p, n, h) -> nth_error l j = Some (p', n', h') -> p + n + 60 <= p').
Proof.
  intros r OK CH. destruct (long_total r OK CH (S (length (r_mem r))) ltac:(lia)) as [x RL]. pose proof (reach_inv _ r (ar_open r) OK (ex_intro _ x RL) (R_open _ _)) as I. pose proof OK as (A & B & C & D & E).
  destruct (walk_safe (S (length (r_mem r))) r (S (length (r_mem r))) (ar_open r) OK I) as (l & s' & W & S1 & S2); [unfold ends, ar_open; cbn [t_off]; unfold zlen in *; lia|lia|]. exists l, s'. split; [exact W|]. split; [|exact S2]. intros p n h H. specialize (S1 p n h H). unfold ends in S1. cbn [ar_open t_off] in S1. lia.
Qed.
Print Assumptions C24_walk_partial.
Definition e_arc (mp : bool) : arc := whole mp (magic ++ e_body).
Lemma e_arc_ok : forall mp, arc_ok (e_arc mp).
Proof. intro mp. apply ok_whole. vm_compute. split; [discriminate|reflexivity]. Qed.
Example C24_nonvacuous : arc_ok (e_arc true) /\ chained (e_arc true) 8 /\ match ar_walk 999 999 (e_arc true) (ar_open (e_arc true)) with Ok (l, _) => map fst l = [(68, 10); (138, 23); (222, 3); (286, 1)] | _ => False end.
Proof.
  split; [apply e_arc_ok|]. split; [|vm_compute; reflexivity]. apply (C_step _ 8 10); [reflexivity|vm_compute; reflexivity|lia|]. apply C_table; reflexivity.
Qed.
(* FINDING: a size of -60 in the first header makes the search for the long names run forever. *)
Theorem C24_loop_refuted : exists r, arc_ok r /\ forall steps fuel, ar_walk (S steps) fuel r (ar_open r) = Fuel.
Proof.
  exists (whole true i_loop). split; [apply ok_whole; vm_compute; split; [discriminate|reflexivity]|]. intros steps fuel.
  assert (FL : find_long fuel (whole true i_loop) 8 = Fuel). { induction fuel as [|k IH]; [vm_compute; reflexivity|]. cbn [find_long].
    match goal with |- (if ?c then _ else _) = _ => replace c with false by (vm_compute; reflexivity) end. replace (atol (r_mem (whole true i_loop)) ((if r_mapped (whole true i_loop) then 8 else r_so (whole true i_loop) + 8) + 48)) with (Ok (-60)) by (vm_compute; reflexivity). cbn [r_mapped whole] in *. cbn [obind].
    match goal with |- (if ?c then _ else _) = _ => replace c with false by (vm_compute; reflexivity) end. replace (s64 (8 + SZ_HDR + even_up (u64 (-60)))) with 8 by (vm_compute; reflexivity). exact IH. }
  cbn [ar_walk]. unfold ar_begin. cbn [ar_open t_hdr h_name]. unfold next_arhdr.
  match goal with |- context [if ?c then Ok (ELF_E_RANGE, _) else _] => replace c with false by (vm_compute; reflexivity) end.
  match goal with |- context [if ?c then Ok (ELF_E_ARCHIVE_FMAG, _) else _] => replace c with false by (vm_compute; reflexivity) end.
  cbv zeta. unfold name_of. cbn [ar_open t_off t_long]. replace (byte_at (r_mem (whole true i_loop)) (r_so (whole true i_loop) + 8)) with (Ok 47) by (vm_compute; reflexivity). replace (byte_at (r_mem (whole true i_loop)) (r_so (whole true i_loop) + 8 + 1)) with (Ok 48) by (vm_compute; reflexivity).
  cbn [obind]. change (47 =? 47) with true. change (48 =? 32) with false. change (48 =? 83) with false. change (48 =? 47) with false. change (isdigit 48) with true. cbn [andb]. cbn iota. unfold read_long_names. rewrite FL. reflexivity.
Qed.
Print Assumptions C24_loop_refuted.
(* FINDING: that search also reads past the end of a mapped file. *)
Theorem C24_overread_refuted : exists r, arc_ok r /\ ar_walk 999 999 r (ar_open r) = UB.
Proof. exists (whole true i_over). split; [apply ok_whole; vm_compute; split; [discriminate|reflexivity]|vm_compute; reflexivity]. Qed.
Print Assumptions C24_overread_refuted.
(* FINDING: when elf_begin fails because of the size of the member, calling it again succeeds, with
   a member of 2^64-2 bytes, or fails an assertion. *)
Theorem C24_retry_refuted : exists r1 r2, arc_ok r1 /\ arc_ok r2 /\
  match ar_begin 999 r1 (ar_open r1) with Ok (None, s) => ar_begin 999 r1 s = UB | _ => False end /\
  match ar_begin 999 r2 (ar_open r2) with Ok (None, s) => match ar_begin 999 r2 s with Ok (m, _) => m = Some (68, two64 - 2) | _ => False end | _ => False end.
Proof.
  exists (whole false i_retry), (whole false i_retry2). split; [apply ok_whole; vm_compute; split; [discriminate|reflexivity]|]. split; [apply ok_whole; vm_compute; split; [discriminate|reflexivity]|]. split; vm_compute; reflexivity.
Qed.
Print Assumptions C24_retry_refuted.
(* FINDING: in an archive that is a member of an archive that is not mapped, members behind the
   end of the archive are handed out. *)
Theorem C24_nested_refuted : exists r p n h, 0 <= r_so r /\ 8 <= r_mx r /\ r_so r + r_mx r <= zlen (r_mem r) /\
  match ar_walk 999 999 r (ar_open r) with Ok (l, _) => In (p, n, h) l /\ r_so r + r_mx r < p /\ zlen (r_mem r) < p + n | _ => False end.
Proof.
  exists (Arc i_inner_then false 0 70), 130, 999999, (Ah (Some [98]) [98; 47; 32; 32; 32; 32; 32; 32; 32; 32; 32; 32; 32; 32; 32; 32] 7 1 2 644 999999). split; [vm_compute; discriminate|]. split; [vm_compute; discriminate|]. split; [vm_compute; discriminate|]. vm_compute. split; [right; left; reflexivity|]. split; reflexivity.
Qed.
Print Assumptions C24_nested_refuted.

(* ------------------------------------------------------------------ *)
(* C25 *)
(* The table in memory has the length of the table in the file.  The name at an index is what the
   file has up to the next slash; if there is none it is empty.  In any case a NUL follows. *)
Theorem C25_terminated : forall fuel r t, arc_ok r -> read_long_names fuel r = Ok (Some t) ->
  exists p, 0 <= p /\ p + zlen t <= zlen (r_mem r) /\
    forall a b, zsub (r_mem r) p (zlen t) = a ++ b -> b <> [] -> exists n rest, skipn (length a) t = n ++ 0 :: rest /\ ((exists c, b = n ++ 47 :: c /\ ~ In 47 n) \/ n = [] /\ ~ In 47 b).
Proof.
  intros fuel r t (A & B & C & D & E) H. unfold read_long_names in H. destruct (find_long fuel r 8) as [f| | |] eqn:FL; try discriminate H. cbn [obind] in H. destruct f as [[o len]|]; [|discriminate].
  assert (FP : forall fuel o0 o len, - two63 <= o0 < two63 -> find_long fuel r o0 = Ok (Some (o, len)) -> 0 <= len /\ if r_mapped r then 0 <= o /\ o + 60 <= r_mx r else 0 <= r_so r + o).
  { clear - A B C D E. induction fuel as [|k IH]; intros o0 o len O H; cbn [find_long] in H.
    all: destruct (r_mapped r) eqn:MP.
    all: match type of H with (if ?c then _ else _) = _ => destruct c eqn:C1 end; [discriminate H|].
    all: match type of H with obind ?c _ = _ => destruct c as [v| | |] end; try discriminate H; cbn [obind] in H; cbv zeta in H; destruct (bytes_eqb _ _).
    all: try discriminate H.
    all: try (injection H as <- <-; split; [unfold u64; apply Z.mod_pos_bound; lia|]).
    all: try (specialize (IH _ _ _ (s64_range _) H); exact IH).
    all: try (unfold SZ_HDR in C1; destruct (Z_lt_le_dec o0 0); [pose proof (u64_neg o0 ltac:(lia)); lia|rewrite u64_small in C1 by lia; lia]).
    all: rewrite negb_false_iff in C1; unfold readable in C1; lia. }
  destruct (FP _ 8 _ _ ltac:(lia) FL) as [L0 FO]. clear FP. destruct (if r_mapped r then r_mx r - o - SZ_HDR <? len else _) eqn:C2; [discriminate|]. cbv zeta in H. set (q := (if r_mapped r then o else r_so r + o) + SZ_HDR) in *. assert (TE : t = termd (zsub (r_mem r) q len)) by (unfold termd; congruence). clear H. subst t.
  assert (Q : 0 <= q /\ q + len <= zlen (r_mem r)). { unfold q, SZ_HDR in *. destruct (r_mapped r); [lia|]. rewrite negb_false_iff in C2. unfold readable in C2. lia. }
  assert (ZL : zlen (termd (zsub (r_mem r) q len)) = len). { unfold termd, zlen at 1. rewrite terminate_length. change (zlen (zsub (r_mem r) q len) = len). apply zsub_len; lia. }
  exists q. rewrite ZL. split; [lia|]. split; [lia|]. intros a b AB NB. rewrite AB. destruct (index_of 47 b) as [i|] eqn:IX.
  - destruct (index_of_some _ _ _ IX) as (n & c & -> & LN & FN). destruct (termd_slash a n c FN) as [rest TS]. exists n, rest. split; [exact TS|]. left. exists c. split; [reflexivity|]. intro IN. exact (proj1 (Forall_forall _ _) FN 47 IN eq_refl).
  - apply index_of_none in IX. rewrite (termd_none a b IX). destruct b as [|x b]; [congruence|]. exists [], (repeat 0 (length b)). split; [reflexivity|]. right. split; [reflexivity|]. intro IN. exact (proj1 (Forall_forall _ _) IX 47 IN eq_refl).
Qed.
Print Assumptions C25_terminated.
Example C25_terminated_nonvacuous : read_long_names 9 (e_arc true) = Ok (Some ([120; 121; 0] ++ long_name ++ [0])) /\ read_long_names 9 (whole false i_slash) = Ok (Some ([100; 105; 114; 0] ++ [102; 105; 108; 101; 49; 50; 51; 52; 53; 54; 55; 56; 46; 111; 0] ++ [0])).
Proof. split; vm_compute; reflexivity. Qed.

(* ---- C54 (and C25, C24 for well-formed archives) ---- *)
(* The loop over a well-formed archive gives its members, in order, each with its place, its size,
   its contents, its name (long or short), date, owner and group.  The digits of the mode are taken
   as a decimal number.  In a mapped file the archive has to be at the start of the file. *)
Theorem C54_members_partial : forall r ms body names, arc_ok r -> (r_mapped r = true -> r_so r = 0) ->
  members ms body -> at_ (r_mem r) (r_so r) (magic ++ body) -> r_mx r = zlen (magic ++ body) ->
  Forall2 (fun m n => named (table ms) (m_name m) n) ms names ->
  exists l s', ar_walk (S (length (r_mem r))) (S (length (r_mem r))) r (ar_open r) = Ok (l, s') /\ reports (r_mem r) (r_so r + 8) ms names l.
Proof.
  intros r ms body names OK MP MB A MX FN. pose proof OK as (A0 & B0 & C0 & D0 & E0). apply at_app2 in A. rewrite zlen_app in MX. change (zlen magic) with 8 in *. set (fuel := S (length (r_mem r))).
  assert (RL : read_long_names fuel r = Ok (option_map termd (table ms))). { apply (long_exact r ms body); [exact OK|exact MB| |lia|unfold fuel; lia]. unfold base. destruct (r_mapped r); [rewrite (MP eq_refl) in A; exact A|exact A]. }
  assert (TL : forall t, table ms = Some t -> zlen t < two63). { intros t T. destruct (at_bound _ _ _ A) as [_ AB]. assert (forall l b, members l b -> table l = Some t -> zlen t <= zlen b). { clear. induction 1 as [|m h H|m h pad l b H PD MB IH]; cbn [table]; intro T; [discriminate| |]; (destruct (list_eq_dec _ _ _); [injection T as <-|]); [rewrite zlen_app; pose proof (zlen_nonneg _ h); lia|discriminate|rewrite !zlen_app; pose proof (zlen_nonneg _ h); pose proof (zlen_nonneg _ pad); pose proof (zlen_nonneg _ b); lia|]. specialize (IH T). rewrite !zlen_app. pose proof (zlen_nonneg _ h). pose proof (zlen_nonneg _ pad). pose proof (zlen_nonneg _ (m_data m)). lia. }
    pose proof (H ms body MB T). lia. }
  assert (LI : long_is fuel r (table ms) None) by (split; [left; reflexivity|exact RL]). set (tab := table ms) in *. clearbody tab.
  destruct ms as [|m0 ms'].
  - inversion MB; subst. inversion FN; subst. change (zlen (@nil Z)) with 0 in MX. cbn [ar_walk]. unfold fuel. cbn [ar_walk]. unfold ar_begin. cbn [ar_open t_hdr h_name]. rewrite next_end; [|exact OK|unfold ends, ar_open; cbn [t_off]; lia]. cbn [obind]. change (negb (ELF_E_RANGE =? 0)) with true. cbn iota. do 2 eexists. split; [reflexivity|apply P_nil].
  - inversion FN as [|? n0 ? ns' FN1 FN2]; subst.
    assert (NX : exists s', next_arhdr fuel r (ar_open r) = Ok (0, s') /\ t_off s' = r_so r + 8 /\ long_is fuel r tab (t_long s') /\ shows_hdr m0 n0 (t_hdr s')).
    { inversion MB as [|? h1 H1 EE1 EE2|? h1 pad1 ? b1 H1 PD1 MB1 EE1 EE2]; subst; (apply (next_exact fuel r (ar_open r) tab m0 h1 n0 OK); [cbn [ar_open t_off]; lia|exact (at_app1 _ _ _ _ A)|exact H1| |exact FN1|exact LI|exact TL]); rewrite !zlen_app, (header_len _ _ H1) in MX; unfold ends; cbn [ar_open t_off]; try (pose proof (zlen_nonneg _ pad1); pose proof (zlen_nonneg _ b1)); lia. }
    destruct NX as (s1 & NX & T1 & LI1 & SH1). assert (WE : ar_walk fuel fuel r (ar_open r) = ar_walk fuel fuel r s1). { unfold fuel. cbn [ar_walk]. fold fuel. unfold ar_begin. cbn [ar_open t_hdr h_name]. change (Ast (r_so r + 8) (Ah None [] 0 0 0 0 0) None) with (ar_open r). rewrite NX. pose proof SH1 as (HN & _). rewrite HN. reflexivity. }
    rewrite WE. destruct (walk_exact r tab fuel (m0 :: ms') body OK MB TL (n0 :: ns') s1 m0 ms' n0 ns' fuel eq_refl eq_refl FN) as (l & s' & W & RP); [rewrite T1; exact A|lia|unfold ends; lia|exact LI1|exact SH1| |].
    + assert (LM : forall l b, members l b -> (length l <= length b)%nat). { clear. induction 1 as [|m h H|m h pad l b H PD MB IH]; cbn [length]; [lia| |]; pose proof (header_len _ _ H) as HL; unfold zlen in HL; rewrite ?app_length; lia. } pose proof (LM _ _ MB). destruct (at_bound _ _ _ A) as [_ AB]. unfold fuel, zlen in *. lia.
    + exists l, s'. split; [exact W|]. rewrite <- T1. exact RP.
Qed.
Print Assumptions C54_members_partial.
Example C54_nonvacuous : arc_ok (e_arc true) /\ members e_ms e_body /\ at_ (r_mem (e_arc true)) 0 (magic ++ e_body) /\ r_mx (e_arc true) = zlen (magic ++ e_body) /\ Forall2 (fun m n => named (table e_ms) (m_name m) n) e_ms e_names /\
  match ar_walk 999 999 (e_arc true) (ar_open (e_arc true)) with Ok (l, _) => map (fun x => h_name (snd x)) l = map Some e_names | _ => False end.
Proof. split; [apply e_arc_ok|]. split; [exact e_members|]. split; [apply at_all|]. split; [reflexivity|]. split; [exact e_named|]. vm_compute. reflexivity. Qed.
(* elf_rand to the offset of any member, after any calls: the offset is returned, and elf_begin and
   elf_getarhdr then give that member as in the loop. *)
Theorem C54_rand : forall r ms body names, arc_ok r -> (r_mapped r = true -> r_so r = 0) ->
  members ms body -> at_ (r_mem r) (r_so r) (magic ++ body) -> r_mx r = zlen (magic ++ body) ->
  Forall2 (fun m n => named (table ms) (m_name m) n) ms names ->
  let fuel := S (length (r_mem r)) in
  forall l s' s, ar_walk fuel fuel r (ar_open r) = Ok (l, s') -> reach fuel r s -> forall p n h, In (p, n, h) l ->
  let offset := p - 60 - r_so r in
  exists s1, ar_rand fuel r s offset = Ok (offset, s1) /\ ar_begin fuel r s1 = Ok (Some (p, n), s1) /\ ar_gethdr fuel r s1 = Ok (Some h, s1).
Proof.
  intros r ms body names OK MP MB A MX FN fuel l s' s W RS p n h IN offset.
  destruct (C54_members_partial r ms body names OK MP MB A MX FN) as (l' & s'' & W' & RP). fold fuel in W'. rewrite W in W'. injection W' as <- <-.
  pose proof OK as (A0 & B0 & C0 & D0 & E0). apply at_app2 in A. rewrite zlen_app in MX. change (zlen magic) with 8 in *.
  assert (RL : read_long_names fuel r = Ok (option_map termd (table ms))). { apply (long_exact r ms body); [exact OK|exact MB| |lia|unfold fuel; lia]. unfold base. destruct (r_mapped r); [rewrite (MP eq_refl) in A; exact A|exact A]. }
  assert (TL : forall t, table ms = Some t -> zlen t < two63). { intros t T. destruct (at_bound _ _ _ A) as [_ AB]. assert (forall l b, members l b -> table l = Some t -> zlen t <= zlen b). { clear. induction 1 as [|m h H|m h pad l b H PD MB IH]; cbn [table]; intro T; [discriminate| |]; (destruct (list_eq_dec _ _ _); [injection T as <-|]); [rewrite zlen_app; pose proof (zlen_nonneg _ h); lia|discriminate|rewrite !zlen_app; pose proof (zlen_nonneg _ h); pose proof (zlen_nonneg _ pad); pose proof (zlen_nonneg _ b); lia|]. specialize (IH T). rewrite !zlen_app. pose proof (zlen_nonneg _ h). pose proof (zlen_nonneg _ pad). pose proof (zlen_nonneg _ (m_data m)). lia. }
    pose proof (H ms body MB T). lia. }
  destruct (reported_at _ (table ms) _ _ MB _ _ _ A RP FN _ _ _ IN) as (m & h1 & nm & H1 & AH & NM & -> & PL & PE & SH).
  set (s0 := Ast (s64 (r_so r + offset)) (t_hdr s) (t_long s)). pose proof (zlen_nonneg _ (m_data m)).
  assert (T0 : t_off s0 = p - 60) by (subst s0; cbn [t_off]; rewrite s64_small; unfold offset; lia).
  destruct (next_exact fuel r s0 (table ms) m h1 nm OK ltac:(lia) ltac:(rewrite T0; exact AH) H1 ltac:(rewrite T0; unfold ends; lia) NM ltac:(split; [exact (reach_known _ _ _ _ RL RS)|exact RL]) TL) as (s1 & NX & T1 & _ & SH1).
  exists s1. pose proof (shows_unique _ _ _ _ SH SH1) as EH. pose proof SH1 as (HN & _ & _ & _ & _ & HS & _).
  split; [unfold ar_rand; fold s0; rewrite NX; reflexivity|]. split.
  - unfold ar_begin. rewrite HN. cbn [obind Z.eqb negb]. cbv zeta. rewrite HS, T1, T0, u64_small by lia. unfold SZ_HDR. replace (zlen (m_data m) =? two64 - 1) with false by lia.
    replace (r_mapped r && (8 <=? zlen (m_data m)) && (zlen (r_mem r) <? p - 60 + 60 + 8)) with false by (symmetry; destruct (r_mapped r); cbn [andb]; lia). do 4 f_equal. lia.
  - unfold ar_gethdr. rewrite HN, EH. reflexivity.
Qed.
Print Assumptions C54_rand.
Example C54_rand_nonvacuous : match ar_walk 999 999 (e_arc true) (ar_open (e_arc true)) with
  | Ok (l, s) => match nth_error l 2 with Some (p, n, h) => match ar_rand 999 (e_arc true) s (p - 60) with Ok (v, s1) => v = p - 60 /\ t_hdr s1 = h /\ h_name h <> None | _ => False end | None => False end
  | _ => False end.
Proof. vm_compute. repeat split; discriminate. Qed.
(* FINDING: the mode of a member is octal, but is read as decimal. *)
Theorem C54_mode_refuted : exists r, arc_ok r /\ zsub (r_mem r) 48 8 = [49; 48; 48; 54; 52; 52; 32; 32] /\
  match ar_gethdr 999 r (ar_open r) with Ok (Some h, _) => h_mode h <> 1 * 8 ^ 5 + 0 * 8 ^ 4 + 0 * 8 ^ 3 + 6 * 8 ^ 2 + 4 * 8 + 4 | _ => False end.
Proof.
  exists (whole true i_mode). split; [apply ok_whole; vm_compute; split; [discriminate|reflexivity]|]. split; [vm_compute; reflexivity|vm_compute; discriminate].
Qed.
Print Assumptions C54_mode_refuted.
(* A long name is resolved: the name of a member is the text in the table from the index in its
   header to the next slash. *)
Theorem C25_names_partial : forall r ms body names i m a n b ds, arc_ok r -> (r_mapped r = true -> r_so r = 0) ->
  members ms body -> at_ (r_mem r) (r_so r) (magic ++ body) -> r_mx r = zlen (magic ++ body) -> Forall2 (fun m n => named (table ms) (m_name m) n) ms names ->
  nth_error ms i = Some m -> m_name m = padded (47 :: ds) -> ds <> [] -> Forall digit ds -> (length ds < 15)%nat -> dec ds = zlen a -> table ms = Some (a ++ n ++ 47 :: b) -> Forall plain n ->
  exists l s' p sz h, ar_walk (S (length (r_mem r))) (S (length (r_mem r))) r (ar_open r) = Ok (l, s') /\ nth_error l i = Some (p, sz, h) /\ h_name h = Some n.
Proof.
  intros r ms body names i m a n b ds OK MP MB A MX FN NI NM NE FD LD DE TB FP.
  assert (FN' : exists names', Forall2 (fun m n => named (table ms) (m_name m) n) ms names' /\ nth_error names' i = Some n).
  { assert (NN : named (table ms) (m_name m) n) by (rewrite NM; exact (N_long _ _ a n b ds TB NE FD LD DE eq_refl FP)). clear - FN NI NN. revert FN NI NN. generalize (table ms) as tab. intros tab FN. revert i. induction FN as [|m1 n1 ms ns F1 F IH]; intros i NI NN; [destruct i; discriminate|]. destruct i as [|i]; cbn [nth_error] in NI.
    - injection NI as ->. exists (n :: ns). split; [constructor; assumption|reflexivity].
    - destruct (IH i NI NN) as (ns' & F2 & N2). exists (n1 :: ns'). split; [constructor; assumption|exact N2]. }
  destruct FN' as (names' & FN' & NI'). destruct (C54_members_partial r ms body names' OK MP MB A MX FN') as (l & s' & W & RP). exists l, s'.
  assert (RN : forall o ms ns l, reports (r_mem r) o ms ns l -> forall i n, nth_error ns i = Some n -> exists p sz h, nth_error l i = Some (p, sz, h) /\ h_name h = Some n).
  { clear. induction 1 as [|o m ms n ns h hs SH ZD RP IH]; intros i k K; [destruct i; discriminate|]. destruct i as [|i]; cbn [nth_error] in *; [injection K as <-; do 3 eexists; split; [reflexivity|exact (proj1 SH)]|apply IH; exact K]. }
  destruct (RN _ _ _ _ RP i n NI') as (p & sz & h & H1 & H2). exists p, sz, h. split; [exact W|]. split; [exact H1|exact H2].
Qed.
Print Assumptions C25_names_partial.
Example C25_names_nonvacuous : nth_error e_ms 3 = Some m_long /\ m_name m_long = padded (47 :: [51]) /\ dec [51] = zlen [120; 121; 47] /\ table e_ms = Some ([120; 121; 47] ++ long_name ++ [47]) /\ Forall plain long_name.
Proof. repeat split; try reflexivity. apply plain_list. reflexivity. Qed.
(* FINDING: names end at the first slash, not at the slash before the newline. *)
Theorem C25_slash_refuted : exists r, arc_ok r /\ zsub (r_mem r) 68 20 = [100; 105; 114; 47; 102; 105; 108; 101; 49; 50; 51; 52; 53; 54; 55; 56; 46; 111; 47; 10] /\
  match ar_rand 999 r (ar_open r) 88 with Ok (v, s1) => v = 88 /\ match ar_gethdr 999 r s1 with Ok (Some h, _) => h_name h = Some [100; 105; 114] | _ => False end | _ => False end.
Proof.
  exists (whole true i_slash). split; [apply ok_whole; vm_compute; split; [discriminate|reflexivity]|]. split; [vm_compute; reflexivity|]. vm_compute. split; reflexivity.
Qed.
Print Assumptions C25_slash_refuted.
(* FINDING: in an archive that is a member of a mapped archive, the table is searched in the outer
   archive: the long name is not found. *)
Theorem C25_nested_refuted : exists r ms body names, arc_ok r /\ r_mapped r = true /\ members ms body /\ at_ (r_mem r) (r_so r) (magic ++ body) /\ r_mx r = zlen (magic ++ body) /\ Forall2 (fun m n => named (table ms) (m_name m) n) ms names /\
  match ar_walk 999 999 r (ar_open r) with Ok (l, _) => (length l < length ms)%nat | _ => False end.
Proof.
  set (t1 := [97; 50; 51; 52; 53; 54; 55; 56; 57; 48; 49; 50; 51; 52; 53; 54; 55; 56]).
  set (md := [54; 52; 52; 32; 32; 32; 32; 32]). set (m1 := Member (padded [47; 47]) 7 1 2 md (t1 ++ [47; 10])). set (m2 := Member (padded [47; 48]) 7 1 2 md [113; 113]). set (body := zsub i_outer 76 142).
  exists (Arc i_outer true 68 150), [m1; m2], body, [[47; 47]; t1]. split; [unfold arc_ok; cbn [r_so r_mx r_mem r_mapped]; vm_compute; repeat split; intros; congruence|]. split; [reflexivity|]. split.
  { assert (MD : exists ds k, ds <> [] /\ Forall digit ds /\ md = ds ++ repeat 32 k) by (exists [54; 52; 52], 5%nat; split; [discriminate|]; split; [repeat constructor; unfold digit; lia|reflexivity]).
    assert (D : field 12 7 ([55] ++ repeat 32 11)) by fld 7 [55] 11%nat. assert (U : field 6 1 ([49] ++ repeat 32 5)) by fld 1 [49] 5%nat. assert (G : field 6 2 ([50] ++ repeat 32 5)) by fld 2 [50] 5%nat.
    replace body with (zsub i_outer 76 60 ++ m_data m1 ++ [] ++ zsub i_outer 156 60 ++ m_data m2) by (vm_compute; reflexivity). apply M_cons; [|reflexivity|apply M_last]; exists ([55] ++ repeat 32 11), ([49] ++ repeat 32 5), ([50] ++ repeat 32 5).
    - exists ([50; 48] ++ repeat 32 8). split; [reflexivity|]. split; [reflexivity|]. split; [exact D|]. split; [exact U|]. split; [exact G|]. split; [fld 20 [50; 48] 8%nat|]. split; [exact MD|vm_compute; reflexivity].
    - exists ([50] ++ repeat 32 9). split; [reflexivity|]. split; [reflexivity|]. split; [exact D|]. split; [exact U|]. split; [exact G|]. split; [fld 2 [50] 9%nat|]. split; [exact MD|vm_compute; reflexivity]. }
  split; [split; [discriminate|split; [vm_compute; discriminate|vm_compute; reflexivity]]|]. split; [vm_compute; reflexivity|]. split.
  { constructor; [apply N_table|constructor; [|constructor]]. apply (N_long _ (t1 ++ [47; 10]) [] t1 [10] [48]); [reflexivity|discriminate|repeat constructor; unfold digit; lia|cbn; lia|reflexivity|reflexivity|apply plain_list; reflexivity]. }
  vm_compute. lia.
Qed.
Print Assumptions C25_nested_refuted.

(* ------------------------------------------------------------------ *)
(* C26 *)
(* elf_getarsym gives the entries of a well-formed index, with offset, name and hash, and the entry
   with the null name.  If the file is not mapped, w more bytes must follow the index. *)
Theorem C26_exact_partial : forall r m h w syms rest, arc_ok r -> at_ (r_mem r) (r_so r + 8) (h ++ m_data m) -> header m h -> index_kind (m_name m) w -> m_data m = index w syms ++ rest -> 68 + zlen (m_data m) <= r_mx r ->
  Forall (fun s => cstring (fst s) /\ 0 <= snd s < 256 ^ w) syms -> (if r_mapped r then syms <> [] else r_so r + 68 + w + zlen (m_data m) <= zlen (r_mem r)) ->
  let res := map (fun s => Sym (Some (fst s)) (snd s) (abi_hash (fst s))) syms ++ [Sym None 0 (two64 - 1)] in
  exists c, getarsym r None = (Ok res, c) /\ getarsym r c = (Ok res, c).
Proof.
  intros r m h w syms rest OK A H K D L F MP res. pose proof (arsym_exact r m h w syms rest OK A H K D L F MP) as RE. exists (Some (Some res)). unfold getarsym. rewrite RE. split; reflexivity.
Qed.
Print Assumptions C26_exact_partial.
Example C26_exact_nonvacuous : at_ (r_mem (e_arc true)) (r_so (e_arc true) + 8) (h_idx ++ m_data m_idx) /\ header m_idx h_idx /\ index_kind (m_name m_idx) 4 /\ m_data m_idx = index 4 [([102], 68)] ++ [] /\ cstring [102] /\
  getarsym (e_arc true) None = (Ok [Sym (Some [102]) 68 102; Sym None 0 (two64 - 1)], Some (Some [Sym (Some [102]) 68 102; Sym None 0 (two64 - 1)])) /\ fst (getarsym (e_arc false) None) = fst (getarsym (e_arc true) None).
Proof.
  split; [split; [vm_compute; discriminate|]; split; [vm_compute; discriminate|vm_compute; reflexivity]|]. split; [pose proof e_members as M; inversion M; subst|]. 2: { split; [left; split; reflexivity|]. split; [reflexivity|]. split; [repeat constructor; lia|]. split; vm_compute; reflexivity. }
  exists ([55] ++ repeat 32 11), ([49] ++ repeat 32 5), ([50] ++ repeat 32 5), ([49; 48] ++ repeat 32 8). split; [reflexivity|]. split; [reflexivity|]. split; [fld 7 [55] 11%nat|]. split; [fld 1 [49] 5%nat|]. split; [fld 2 [50] 5%nat|]. split; [fld 10 [49; 48] 8%nat|]. split; [|reflexivity]. exists [54; 52; 52], 5%nat. split; [discriminate|]. split; [repeat constructor; unfold digit; lia|reflexivity].
Qed.
(* For any contents it gives a list or an error if the strings that follow the offsets contain a
   NUL for each symbol and 8 bytes follow the header. *)
Theorem C26_safe_partial : forall r, arc_ok r -> bytes_ok (r_mem r) -> (r_mapped r = true -> r_so r + 76 <= zlen (r_mem r)) ->
  (forall w n len, index_kind (zsub (r_mem r) (r_so r + 8) 16) w -> rd false (r_mem r) (r_so r + 68) w = Ok n -> atol (zsub (r_mem r) (r_so r + 56) 10 ++ [0]) 0 = Ok len -> n <= nuls (strings r w n (u64 len))) ->
  (exists l, read_arsym r = Ok l) \/ (exists e, read_arsym r = Err e).
Proof. exact arsym_safe. Qed.
Print Assumptions C26_safe_partial.
Example C26_safe_nonvacuous : index_kind (zsub (r_mem (e_arc true)) 8 16) 4 /\ rd false (r_mem (e_arc true)) 68 4 = Ok 1 /\ atol (zsub (r_mem (e_arc true)) 56 10 ++ [0]) 0 = Ok 10 /\ nuls (strings (e_arc true) 4 1 10) = 1.
Proof. split; [left; split; vm_compute; reflexivity|]. repeat split; vm_compute; reflexivity. Qed.
(* FINDING: an index whose last name has no NUL is read beyond the end of the mapped file. *)
Theorem C26_oob_refuted : exists r, arc_ok r /\ read_arsym r = UB.
Proof. exists (whole true i_oob). split; [apply ok_whole; vm_compute; split; [discriminate|reflexivity]|vm_compute; reflexivity]. Qed.
Print Assumptions C26_oob_refuted.
(* FINDING: a well-formed index at the end of the file is read if the file is mapped, and not
   otherwise. *)
Theorem C26_last_refuted : exists b, arc_ok (whole true b) /\ arc_ok (whole false b) /\ read_arsym (whole true b) = Ok [Sym (Some [102]) 68 102; Sym None 0 (two64 - 1)] /\ read_arsym (whole false b) = Err ELF_E_NO_INDEX.
Proof.
  exists i_last. split; [apply ok_whole; vm_compute; split; [discriminate|reflexivity]|]. split; [apply ok_whole; vm_compute; split; [discriminate|reflexivity]|]. split; vm_compute; reflexivity.
Qed.
Print Assumptions C26_last_refuted.
