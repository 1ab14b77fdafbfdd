(* C89: the units of a module. *)
From Verif Require Import Base LazyModel LazySpec LazyProof.

Definition d_units : list lunit := [Lunit 0 11 40; Lunit 40 51 90; Lunit 90 101 120].
Definition d_ranges : list larange := [Larange 4096 16 51; Larange 4112 16 51; Larange 4160 32 11; Larange 4200 8 51].
Lemma d_chain : chain 120 0 d_units.
Proof. cbn. lia. Qed.
Lemma d_ranges_ok : ranges_ok d_ranges.
Proof.
  split; [repeat (apply Forall_cons; [cbn; lia|]); apply Forall_nil|].
  intros x a y b z E. unfold d_ranges in E.
  repeat (destruct x as [|? x]; [injection E as <- E; repeat (destruct y as [|? y]; [injection E as <- _; cbn; lia|]; cbn [app] in E; injection E as _ E); destruct y; discriminate E|injection E as _ E]).
  destruct x; discriminate E.
Qed.
Lemma d_rg : Forall (fun g => exists u, In u d_units /\ u_die u = g_off g) d_ranges.
Proof.
  repeat (apply Forall_cons; [cbn [g_off]; first [exists (Lunit 0 11 40); split; [left; reflexivity|reflexivity]|exists (Lunit 40 51 90); split; [right; left; reflexivity|reflexivity]]|]). apply Forall_nil.
Qed.

(* Any history of dwfl_module_nextcu and dwfl_module_addrdie in any order: the traversal gives the units in the order of
   the section and ends after the last, an address in a range gives the unit of the range, and one unit is always given
   as the same entry. *)
Theorem C89_history_partial : forall units size ranges cs rs s,
  chain size 0 units -> ranges_ok ranges -> Forall (fun g => exists u, In u units /\ u_die u = g_off g) ranges ->
  history units size ranges cs start = (rs, s) -> fair [] cs rs ->
  Forall2 (fun c r => answer units ranges c r s) cs rs /\ (forall i j u, shows s i u -> shows s j u -> i = j).
Proof.
  intros units size ranges cs rs s CH RO RG E FR.
  destruct (history_ok units size ranges CH RG RO cs start [] rs s (start_inv units ranges) E (Forall_nil _) FR) as (I & _ & A).
  split; [exact A|]. intros i j u. apply (shows_unique units ranges); exact I.
Qed.
Print Assumptions C89_history_partial.
Example C89_history_nonvacuous :
  let cs := [Addr 4115; Next None; Next (Some 1%nat); Next (Some 0%nat); Next (Some 2%nat); Addr 4170; Addr 5000; Addr 4097; Next None] in
  let rs := [ROk (Some 0%nat); ROk (Some 1%nat); ROk (Some 0%nat); ROk (Some 2%nat); ROk None; ROk (Some 1%nat); RErr E_OUTOFRANGE; ROk (Some 0%nat); ROk (Some 1%nat)] in
  fst (history d_units 120 d_ranges cs start) = rs /\ fair [] cs rs /\ chain 120 0 d_units /\ ranges_ok d_ranges /\ Forall (fun g => exists u, In u d_units /\ u_die u = g_off g) d_ranges.
Proof.
  cbv zeta. split; [vm_compute; reflexivity|]. split; [cbn; tauto|]. split; [exact d_chain|]. split; [exact d_ranges_ok|exact d_rg].
Qed.

(* Which addresses are out of range: those before the first range and those after the end of the last. *)
Theorem C89_range : forall ranges addr, ranges_ok ranges ->
  (find_run ranges addr = Ok None -> (forall g, In g ranges -> addr < g_addr g) \/ (forall g, In g ranges -> g_addr g + g_len g < addr)) /\
  (forall i, find_run ranges addr = Ok (Some i) -> exists g h, In g ranges /\ In h ranges /\ g_addr g <= addr <= g_addr h + g_len h).
Proof.
  intros ranges addr RO. pose proof RO as [RW RD]. pose proof (find_run_ok ranges RO addr) as S.
  assert (POS : forall a, In a ranges -> 0 <= g_addr a /\ 0 < g_len a /\ g_addr a + g_len a < 2 ^ 64) by (intros a I; exact (proj1 (Forall_forall _ _) RW a I)).
  assert (LS : forall g, In g ranges -> g = last ranges (Larange 0 0 0) \/ later ranges g (last ranges (Larange 0 0 0))).
  { intros g IG. assert (NE : ranges <> []) by (intros Q; rewrite Q in IG; destruct IG). destruct (last_split ranges (Larange 0 0 0) NE) as [p EP]. set (t := last ranges (Larange 0 0 0)) in *.
    rewrite EP in IG. apply in_app_or in IG. destruct IG as [IG|[IG|[]]]; [right|left; symmetry; exact IG]. apply in_split in IG. destruct IG as (p1 & p2 & Q). exists p1, p2, []. rewrite EP, Q, <- app_assoc. reflexivity. }
  assert (U : forall g, In g ranges -> In (last ranges (Larange 0 0 0)) ranges /\ u64 (g_addr (last ranges (Larange 0 0 0)) + g_len (last ranges (Larange 0 0 0))) = g_addr (last ranges (Larange 0 0 0)) + g_len (last ranges (Larange 0 0 0))).
  { intros g IG. pose proof (last_in ranges (Larange 0 0 0) g IG) as IL. split; [exact IL|]. pose proof (POS _ IL). unfold u64. apply Z.mod_small. lia. }
  split.
  - intros E. rewrite E in S. destruct S as [S|S].
    + left. intros g IG. destruct ranges as [|a l]; [destruct IG|]. assert (A1 : addr < g_addr a) by (apply S; cbn [runs]; apply znth_0).
      destruct IG as [<-|IG]; [exact A1|]. apply in_split in IG. destruct IG as (p & q & ->). pose proof (RD [] a p g q eq_refl). pose proof (POS a (or_introl eq_refl)). lia.
    + right. intros g IG. destruct (U g IG) as [IL UL]. rewrite UL in S. destruct (LS g IG) as [->|(x & y & z & L)]; [exact S|]. pose proof (RD _ _ _ _ _ L). pose proof (POS _ IL). lia.
  - intros i E. rewrite E in S. destruct S as (g & G1 & G2 & G3). assert (IG : In g ranges) by (apply (runs_in ranges None); apply znth_Some in G1; exact (nth_error_In _ _ (proj2 G1))).
    destruct G3 as [G3|[(b & B1 & B2)|(_ & B)]].
    + exists g, g. pose proof (POS g IG). repeat split; auto; lia.
    + assert (IB : In b ranges) by (apply (runs_in ranges None); apply znth_Some in B1; exact (nth_error_In _ _ (proj2 B1))). pose proof (POS b IB). exists g, b. repeat split; auto; lia.
    + destruct (U g IG) as [IL UL]. rewrite UL in B. exists g, (last ranges (Larange 0 0 0)). auto.
Qed.
Print Assumptions C89_range.
Example C89_range_nonvacuous : find_run d_ranges 4095 = Ok None /\ find_run d_ranges 4209 = Ok None /\ find_run d_ranges 4140 = Ok (Some 0).
Proof. repeat split; vm_compute; reflexivity. Qed.

(* The address right after the end of the last range is in no range, and is found all the same. *)
Theorem C89_end_refuted : exists units size ranges addr, chain size 0 units /\ ranges_ok ranges /\ (forall g, In g ranges -> g_addr g + g_len g <= addr) /\
  exists s, step units size ranges (Addr addr) start = (ROk (Some 0%nat), s).
Proof.
  exists d_units, 120, d_ranges, 4208. split; [exact d_chain|]. split; [exact d_ranges_ok|]. split; [|eexists; vm_compute; reflexivity].
  intros g IG. cbn in IG. repeat (destruct IG as [<-|IG]; [cbn; lia|]). destruct IG.
Qed.
Print Assumptions C89_end_refuted.

(* A last unit whose entries take four bytes or less, such as one entry without attributes and the end of its
   children: it is left out of the traversal.  If an address was looked up before, the traversal ends with an error. *)
Theorem C89_small_refuted : exists units size ranges, ranges_ok ranges /\ Forall (fun u => u_start u < u_die u < u_end u /\ u_end u <= size) units /\ length units = 2%nat /\
  fst (history units size ranges [Next None; Next (Some 0%nat)] start) = [ROk (Some 0%nat); ROk None] /\
  fst (history units size ranges [Addr 5000; Next None; Next (Some 0%nat)] start) = [RErr E_OUTOFRANGE; ROk (Some 0%nat); RErr E_INVALID].
Proof.
  exists [Lunit 0 11 40; Lunit 40 51 55], 55, [Larange 4096 16 11]. split.
  - split; [apply Forall_cons; [cbn; lia|apply Forall_nil]|]. intros x a y b z E. destruct x as [|? x]; [destruct y; discriminate E|destruct x; discriminate E].
  - split; [repeat (apply Forall_cons; [cbn; lia|]); apply Forall_nil|]. split; [reflexivity|]. split; vm_compute; reflexivity.
Qed.
Print Assumptions C89_small_refuted.

(* After that the table of units is gone: the next look-up of an address gives a second entry for a unit that the
   traversal gave already. *)
Theorem C89_twice_refuted : exists units size ranges i j s, i <> j /\
  history units size ranges [Next None; Next (Some i); Addr 4100] start = ([ROk (Some i); ROk None; ROk (Some j)], s) /\
  exists u, shows s i u /\ shows s j u.
Proof.
  exists [Lunit 0 11 40; Lunit 40 51 55], 55, [Larange 4096 16 11], 0%nat, 1%nat. eexists. split; [discriminate|]. split; [vm_compute; reflexivity|].
  exists (Lunit 0 11 40). split; eexists; (split; [reflexivity|]); split; reflexivity.
Qed.
Print Assumptions C89_twice_refuted.
