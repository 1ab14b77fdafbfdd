(* C71: the macros of a unit: dwarf_getmacros and dwarf_getmacros_off. *)
From Verif Require Import Base LebModel LebSpec DwModel Slice CfiSpec CfiProof CfiSafe FormModel FormSpec FormProps LineModel PubModel MacModel MacSpec MacProof Mac2Proof Mac3Proof.
From Coq Require Import ZifyBool ZifyNat.

(* One call: it calls the callback for the entries behind those already seen, in order,
   each with its opcode and with its operands' forms and places, until the callback
   returns something else than 0.  Then it returns a token, from which the next call goes
   on behind that entry; at the end of the entries it returns 0.  The tables kept from
   earlier calls do not change this, but for the line offset of a unit that names none
   (C71_shared_line_refuted).  Partial: sections below 4 GiB; not all 255 opcodes are
   defined; the line offset of the unit's entry is a number or absent. *)
Theorem C71_call_partial : forall A (cb : A -> macro -> A * Z) fle mem e m macoff h si c line done todo accept tok a,
  placed fle mem e m macoff -> names c macoff -> cache_ok fle (Some (Sec mem e)) h -> line_of m (Some c) = Ok line ->
  mu_entries m = done ++ todo -> token_at fle m accept done tok -> (accept = true \/ Forall (fun x => e_op x <> 255) todo) ->
  exists h' line',
    (mu_line m <> None \/ lookup h macoff true = None -> line' = line) /\
    let v := visit (call cb (mu_version m) line') (macoff + zlen (header_bytes fle m) + zlen (entries_bytes done)) a todo in
    getmacros fle cb h (Some (Sec mem e)) si c a tok = Ok (h', fst v, match snd v with None => Done | Some q => Stopped (token accept (q - macoff)) end).
Proof.
  intros A cb fle mem e m macoff h si c line done todo accept tok a P N CO L SP ST AC. destruct (all_ok cb fle mem e m macoff h si c line done todo accept tok a P N CO L SP ST AC) as (h' & line' & _ & _ & Q3 & _ & Q5). exists h', line'. split; [exact Q3|exact Q5].
Qed.
Print Assumptions C71_call_partial.

(* However often and wherever the callback stops it, calling again with the token until 0
   is returned passes every entry exactly once, in order. *)
Theorem C71_every_entry_partial : forall code fle mem e m macoff si c line accept h n,
  placed fle mem e m macoff -> names c macoff -> line_of m (Some c) = Ok line -> (accept = true \/ Forall (fun x => e_op x <> 255) (mu_entries m)) ->
  cache_ok fle (Some (Sec mem e)) h -> (length (mu_entries m) < n)%nat ->
  exists h' line', (mu_line m <> None \/ lookup h macoff true = None -> line' = line) /\
    drive fle code (Some (Sec mem e)) si c n h [] (if accept then START else 0) = Ok (h', macros_from (mu_version m) line' (macoff + zlen (header_bytes fle m)) (mu_entries m), Done).
Proof.
  intros code fle mem e m macoff si c line accept h n P N L AC CO K.
  destruct (drive_ok fle code mem e m macoff si c line accept P N L AC n h [] [] (mu_entries m) (if accept then START else 0) CO eq_refl) as (h' & line' & _ & _ & Q3 & _ & Q5); [right; split; [destruct accept; reflexivity|reflexivity]|exact K|].
  exists h', line'. split; [exact Q3|]. rewrite Q5. change (zlen (entries_bytes [])) with 0. rewrite Z.add_0_r. reflexivity.
Qed.
Print Assumptions C71_every_entry_partial.
(* the same for a unit that is named by its offset, such as an imported one *)
Theorem C71_offset_partial : forall code fle mem e m macoff h n,
  placed fle mem e m macoff -> cache_ok fle (Some (Sec mem e)) h -> (length (mu_entries m) < n)%nat ->
  exists h' line', (mu_line m = None /\ lookup h macoff true = None -> line' = two64 - 1) /\ (forall v, mu_line m = Some v -> line' = v) /\
    drive_off fle code (Some (Sec mem e)) n macoff h [] START = Ok (h', macros_from (mu_version m) line' (macoff + zlen (header_bytes fle m)) (mu_entries m), Done).
Proof.
  intros code fle mem e m macoff h n P CO K. destruct (drive_off_ok fle code mem e m macoff P n h [] [] (mu_entries m) START CO eq_refl) as (h' & line' & _ & _ & Q3 & Q4 & _ & Q5); [right; split; reflexivity|exact K|].
  exists h', line'. split; [exact Q3|]. split; [exact Q4|]. rewrite Q5. change (zlen (entries_bytes [])) with 0. rewrite Z.add_0_r. reflexivity.
Qed.
Print Assumptions C71_offset_partial.
(* The tables that are kept: whatever calls came before, with whatever sections, units and
   callbacks, they are those of the section; nothing kept is correct to begin with. *)
Theorem C71_history : forall fle so,
  cache_ok fle so [] /\
  (forall A (cb : A -> macro -> A * Z) h h' macoff a tok a' r, cache_ok fle so h -> getmacros_off fle cb h so macoff a tok = Ok (h', a', r) -> cache_ok fle so h') /\
  (forall A (cb : A -> macro -> A * Z) h h' si c a tok a' r, cache_ok fle so h -> getmacros fle cb h so si c a tok = Ok (h', a', r) -> cache_ok fle so h').
Proof.
  intros fle so. split; [intros off b t []|]. split; intros; [eapply off_keeps; eassumption|eapply all_keeps; eassumption].
Qed.
Print Assumptions C71_history.
(* A caller that starts with 0 and not with DWARF_GETMACROS_START is not shown opcode 255:
   the entries before it are passed, then the call fails. *)
Theorem C71_ff_refused_partial : forall A (cb : A -> macro -> A * Z) fle mem e m macoff h si c line pre x rest a,
  placed fle mem e m macoff -> names c macoff -> cache_ok fle (Some (Sec mem e)) h -> line_of m (Some c) = Ok line ->
  mu_entries m = pre ++ x :: rest -> e_op x = 255 -> Forall (fun y => e_op y <> 255) pre ->
  exists h' line',
    let v := visit (call cb (mu_version m) line') (macoff + zlen (header_bytes fle m)) a pre in
    getmacros fle cb h (Some (Sec mem e)) si c a 0 = Ok (h', fst v, match snd v with None => Failed DWARF_E_INVALID_OPCODE | Some q => Stopped (q - macoff) end).
Proof.
  intros A cb fle mem e m macoff h si c line pre x rest a P N CO L SP X AC. destruct (refuse_ok A cb fle mem e m macoff h si c line pre x rest a P N CO L SP X AC) as (h' & line' & _ & Q). exists h', line'. exact Q.
Qed.
Print Assumptions C71_ff_refused_partial.
(* .debug_macinfo, from the offset that the unit's DW_AT_macro_info names; opcode 255 is a
   vendor's extension there and always shown *)
Theorem C71_macinfo_partial : forall A (cb : A -> macro -> A * Z) fle mem e so l macoff h c line accept done todo a,
  e < two32 -> Forall (entry_ok (Params fle 8 4 0) old_standard) l -> at_ mem macoff (entries_bytes l ++ [0]) -> macoff + zlen (entries_bytes l) < e ->
  cache_ok fle so h -> c_info c = Some (Some macoff) -> cu_line (Some c) = Ok line -> l = done ++ todo ->
  exists h' line', (lookup h macoff false = None -> line' = line) /\
    let v := visit (call cb 0 line') (macoff + zlen (entries_bytes done)) a todo in
    getmacros fle cb h so (Some (Sec mem e)) c a (token accept (zlen (entries_bytes done))) = Ok (h', fst v, match snd v with None => Done | Some q => Stopped (token accept (q - macoff)) end).
Proof.
  intros A cb fle mem e so l macoff h c line accept done todo a E F AT B CO CI L SP. destruct (macinfo_ok A cb fle mem e so l macoff h c line _ accept done todo a E F AT B CO CI L SP eq_refl) as (h' & line' & _ & Q1 & Q2). exists h', line'. split; [exact Q1|exact Q2].
Qed.
Print Assumptions C71_macinfo_partial.
(* A section of any bytes: a call ends, reads nothing outside, and a token it returns is
   behind where it began and in the section.  Partial: 8 readable bytes behind the section
   (C71_header_refuted), the unit defines no opcodes (C71_opcode0_refuted,
   C71_all_defined_refuted), its header does not fill the section (C71_empty_refuted), and
   the token is that of an entry that is not the section's last (C71_last_refuted). *)
Theorem C71_any_bytes_partial : forall A (cb : A -> macro -> A * Z) fle mem e macoff tok a,
  bytes_ok mem -> e + 8 <= zlen mem -> zlen mem < two63 -> 0 <= macoff -> accepts tok = true -> - two63 <= tok ->
  (forall fl, rd fle mem (macoff + 2) 1 = Ok fl -> Z.testbit fl 2 = false) -> macoff + 11 < e -> offset_from tok < e - macoff ->
  exists h' a' r, getmacros_off fle cb [] (Some (Sec mem e)) macoff a tok = Ok (h', a', r) /\
    match r with Stopped t => offset_from tok < offset_from t /\ macoff + offset_from t <= e /\ accepts t = true | _ => True end.
Proof.
  intros A cb fle mem e macoff tok a B E SM M AC TL FL ME OF. assert (O : 0 <= offset_from tok) by (unfold offset_from; apply Z.mod_pos_bound; lia).
  assert (CT : macoff < e -> safe (cache_op_table fle [] (Sec mem e) true macoff None) (fun r => 0 <= (if offset_from tok =? 0 then t_hdr (snd r) else offset_from tok) < e - macoff)).
  { intros _. rewrite cache_op_ok. cbn [lookup find]. eapply safe_bind; [exact (table_any fle mem e B E SM macoff None M FL)|]. intros t (T1 & T2 & _). cbn [safe snd]. destruct (offset_from tok =? 0); lia. }
  pose proof (read_any fle mem e B E SM cb [] true macoff a (offset_from tok) true None M O CT) as R. unfold getmacros_off, gnu_getmacros. rewrite AC. cbn [negb s_size]. replace (e <=? macoff) with false by lia.
  destruct (read_macros fle cb [] (Some (Sec mem e)) true macoff a (offset_from tok) true None) as [[[h' a'] r]|er| |] eqn:RM; try contradiction.
  - cbn [obind]. exists h', a', (token_from r true). split; [reflexivity|]. cbn [safe snd] in R. destruct r as [|off|er]; cbn [token_from]; try exact Logic.I. replace (off =? 0) with false by lia. replace (two63 <=? off) with false by lia. change (off - two63) with (token true off). destruct (token_parts true off ltac:(lia)) as (-> & ->). lia.
  - exfalso. unfold read_macros in RM. cbn [s_size] in RM. replace (e <=? macoff) with false in RM by lia. destruct (cache_op_table _ _ _ _ _ _) as [[x t]|er2| |]; try discriminate. destruct (_ || _); [discriminate|].
    assert (LE : forall k s t st acc u p a x, ops_loop fle cb k s t st acc u p a <> Err x).
    { clear. induction k as [|k IH]; intros s t st acc u p a x; cbn [ops_loop]; [discriminate|]. destruct (_ <=? _); [discriminate|]. assert (RE : forall er, rd fle (s_mem s) p 1 <> Err er) by (intro er; unfold rd; match goal with |- (if ?b then _ else _) <> _ => destruct b end; discriminate). destruct (rd fle (s_mem s) p 1) as [op|er| |]; cbn [obind]; try discriminate; [|exfalso; exact (RE er eq_refl)]. destruct (_ =? 0); [discriminate|]. destruct (_ && _); [discriminate|]. destruct (forms_of _ _) as [fs|]; [|discriminate]. destruct (operands _ _ _) as [[l q]|er| |]; try discriminate. destruct (cb a _) as [a1 cd]. destruct (negb _); [discriminate|]. apply IH. }
    destruct (ops_loop _ _ _ _ _ _ _ _ _ _) as [[x1 r1]|er2| |] eqn:OL; cbn [obind] in RM; try discriminate. exact (LE _ _ _ _ _ _ _ _ _ OL).
Qed.
Print Assumptions C71_any_bytes_partial.

(* ------------------------------------------------------------------ *)
(* Examples.  A unit of version 5 with a line offset, an operand table that gives opcode
   224 a block1 and a data2 and opcode 1 nothing but a strx1, and five entries. *)
Definition e_defs : list def := [Def 224 [2] [10; 5]; Def 1 [129; 0] [37]].
Definition e_1 : entry := Entry 3 [(15, Unsigned 0, [0]); (15, Unsigned 1, [1])].
Definition e_2 : entry := Entry 5 [(15, Unsigned 300, [172; 2]); (14, Unsigned 66, [66; 0; 0; 0])].
Definition e_3 : entry := Entry 224 [(10, Bytes [7; 8; 9], [3; 7; 8; 9]); (5, Unsigned 258, [2; 1])].
Definition e_4 : entry := Entry 1 [(37, Unsigned 6, [6])].
Definition e_5 : entry := Entry 4 [].
Definition e_unit : munit := MUnit 5 false (Some 77) (Some e_defs) [e_1; e_2; e_3; e_4; e_5].
Definition e_mem : bytes := [9; 9] ++ unit_bytes true e_unit ++ [4; 1; 2; 3; 4; 5; 6; 7].
Definition e_size : Z := 2 + zlen (unit_bytes true e_unit).
Definition e_cu : mcu := MCU (Some (Some 55)) None None (Some (Some 2)) 8.
Ltac lt := match goal with |- ?a /\ ?b => split; lt | |- ?a <= ?b => apply Z.leb_le; vm_compute; reflexivity | |- ?a < ?b => apply Z.ltb_lt; vm_compute; reflexivity end.
Ltac in_list := first [left; reflexivity | right; in_list].
Ltac op_ok := split; [unfold operand_forms; cbn [fst In]; in_list|cbn [fst snd]].
Ltac leb := split; [cbn; lia|split; [lt|split; [reflexivity|lt]]].
Ltac hu := op_ok; apply H_uleb; [unfold is_uleb; cbn [In]; in_list|leb].
Lemma fixed : forall f w n v fle o, In (f, w) (fixed_width (Params fle 8 o v)) -> 0 <= n < 256 ^ w -> holds (Params fle 8 o v) f (Unsigned n) (enc fle w n).
Proof. intros. apply (H_fixed (Params fle 8 o v) f w n); assumption. Qed.
Ltac hf w := op_ok; match goal with |- holds (Params ?fle 8 ?o ?v) ?f (Unsigned ?n) ?b => change b with (enc fle w n); apply fixed; [unfold fixed_width; cbn [In p_off p_addr p_version]; in_list|lt] end.
Ltac ent := split; [lt|]; split; [reflexivity|]; cbn [e_operands].
Lemma e_ok : unit_ok true e_unit.
Proof.
  split; [right; reflexivity|]. split; [change (0 <= 77 < 256 ^ 4); lt|]. split.
  { split; [apply Forall_cons; [split; [lt|leb]|]; apply Forall_cons; [split; [lt|leb]|]; apply Forall_nil|]. split; [lt|]. exists 200. split; [lia|reflexivity]. }
  apply Forall_cons. { ent. apply Forall_cons; [hu|]. apply Forall_cons; [hu|]. apply Forall_nil. }
  apply Forall_cons. { ent. apply Forall_cons; [hu|]. apply Forall_cons; [hf 4|]. apply Forall_nil. }
  apply Forall_cons. { ent. apply Forall_cons; [op_ok; apply (H_block1 (Params true 8 4 5) [7; 8; 9]); lt|]. apply Forall_cons; [hf 2|]. apply Forall_nil. }
  apply Forall_cons. { ent. apply Forall_cons; [hf 1|]. apply Forall_nil. }
  apply Forall_cons. { ent. apply Forall_nil. }
  apply Forall_nil.
Qed.
Lemma e_placed : placed true e_mem e_size e_unit 2.
Proof. split; [vm_compute; reflexivity|]. split; [exact e_ok|]. split; [split; [lia|split; [apply Z.leb_le; vm_compute; reflexivity|vm_compute; reflexivity]]|apply Z.leb_le; vm_compute; reflexivity]. Qed.
Lemma e_names : names e_cu 2. Proof. split; [reflexivity|]. right. split; [left; reflexivity|reflexivity]. Qed.
(* stop at every second entry *)
Definition e_code (a : list macro) (x : macro) : Z := if Nat.even (length a) then 0 else 1.
Definition shows (r : outcome (cache * list macro * ret)) : list (Z * list (Z * Z) * Z) :=
  match r with Ok (_, a, _) => map (fun x => (m_op x, map (fun y => (a_form y, a_valp y)) (m_attrs x), m_line x)) a | _ => [] end.
Definition returned (r : outcome (cache * list macro * ret)) : option ret := match r with Ok (_, _, x) => Some x | _ => None end.
Example C71_call_nonvacuous :
  placed true e_mem e_size e_unit 2 /\ names e_cu 2 /\ cache_ok true (Some (Sec e_mem e_size)) [] /\ line_of e_unit (Some e_cu) = Ok 77 /\
  token_at true e_unit true [e_1; e_2] (26 - two63) /\
  returned (getmacros true (collect e_code) [] (Some (Sec e_mem e_size)) None e_cu [] START) = Some (Stopped (26 - two63)) /\
  shows (getmacros true (collect e_code) [] (Some (Sec e_mem e_size)) None e_cu [] START) = [(3, [(15, 19); (15, 20)], 77); (5, [(15, 22); (14, 24)], 77)] /\
  shows (getmacros true (collect e_code) [] (Some (Sec e_mem e_size)) None e_cu [] (26 - two63)) = [(224, [(10, 29); (5, 33)], 77); (1, [(37, 36)], 77)].
Proof. split; [exact e_placed|]. split; [exact e_names|]. split; [intros off b t []|]. split; [reflexivity|]. split; [left; vm_compute; reflexivity|]. split; [vm_compute; reflexivity|]. split; vm_compute; reflexivity. Qed.
Example C71_every_entry_nonvacuous :
  returned (drive true e_code (Some (Sec e_mem e_size)) None e_cu 6 [] [] START) = Some Done /\
  map (fun x => fst (fst x)) (shows (drive true e_code (Some (Sec e_mem e_size)) None e_cu 6 [] [] 0)) = [3; 5; 224; 1; 4].
Proof. split; vm_compute; reflexivity. Qed.
Example C71_offset_nonvacuous : shows (drive_off true e_code (Some (Sec e_mem e_size)) 6 2 [] [] START) = shows (Ok ([], macros_from 5 77 (2 + zlen (header_bytes true e_unit)) (mu_entries e_unit), Done)).
Proof. vm_compute. reflexivity. Qed.
Definition cache_of (r : outcome (cache * list macro * ret)) : cache := match r with Ok (h, _, _) => h | _ => [] end.
Example C71_history_nonvacuous : cache_ok true (Some (Sec e_mem e_size)) (cache_of (drive true e_code (Some (Sec e_mem e_size)) None e_cu 6 [] [] 0)) /\ cache_of (drive true e_code (Some (Sec e_mem e_size)) None e_cu 6 [] [] 0) <> [].
Proof.
  split; [|vm_compute; discriminate]. destruct (drive_ok true e_code e_mem e_size e_unit 2 None e_cu 77 true e_placed e_names eq_refl (or_introl eq_refl) 6 [] [] [] (mu_entries e_unit) START) as (h' & l & Q1 & _ & _ & _ & Q5); [intros off b t []|reflexivity|right; split; reflexivity|cbn; lia|].
  assert (X : cache_of (drive true e_code (Some (Sec e_mem e_size)) None e_cu 6 [] [] 0) = cache_of (drive true e_code (Some (Sec e_mem e_size)) None e_cu 6 [] [] START)) by (vm_compute; reflexivity). rewrite X, Q5. exact Q1.
Qed.
(* opcode 255 defined and used *)
Definition f_unit : munit := MUnit 4 true None (Some [Def 255 [1] [11]]) [e_5; Entry 255 [(11, Unsigned 3, [3])]; e_5].
Definition f_mem : bytes := unit_bytes true f_unit.
Definition f_cu : mcu := MCU (Some (Some 55)) None (Some (Some 0)) None 8.
Lemma f_ok : unit_ok true f_unit.
Proof.
  split; [left; reflexivity|]. split; [exact Logic.I|]. split.
  { split; [apply Forall_cons; [split; [lt|leb]|]; apply Forall_nil|]. split; [lt|]. exists 200. split; [lia|reflexivity]. }
  apply Forall_cons. { ent. apply Forall_nil. } apply Forall_cons. { ent. apply Forall_cons; [hf 1|]. apply Forall_nil. } apply Forall_cons. { ent. apply Forall_nil. } apply Forall_nil.
Qed.
Example C71_ff_refused_nonvacuous :
  placed true f_mem (zlen f_mem) f_unit 0 /\ names f_cu 0 /\
  returned (getmacros true (collect (fun _ _ => 0)) [] (Some (Sec f_mem (zlen f_mem))) None f_cu [] 0) = Some (Failed DWARF_E_INVALID_OPCODE) /\
  shows (getmacros true (collect (fun _ _ => 0)) [] (Some (Sec f_mem (zlen f_mem))) None f_cu [] 0) = [(4, [], 55)] /\
  shows (getmacros true (collect (fun _ _ => 0)) [] (Some (Sec f_mem (zlen f_mem))) None f_cu [] START) = [(4, [], 55); (255, [(11, 9)], 55); (4, [], 55)].
Proof.
  split. { split; [vm_compute; reflexivity|]. split; [exact f_ok|]. split; [split; [lia|split; [apply Z.leb_le; vm_compute; reflexivity|vm_compute; reflexivity]]|apply Z.leb_le; vm_compute; reflexivity]. }
  split; [split; [reflexivity|left; reflexivity]|]. split; [vm_compute; reflexivity|]. split; vm_compute; reflexivity.
Qed.
(* .debug_macinfo: a file, a definition, a vendor's extension *)
Definition g_l : list entry := [Entry 3 [(15, Unsigned 0, [0]); (15, Unsigned 1, [1])]; Entry 1 [(15, Unsigned 9, [9]); (8, Text [65; 32; 49], [65; 32; 49; 0])]; Entry 255 [(15, Unsigned 7, [7]); (8, Text [88], [88; 0])]; Entry 4 []].
Definition g_mem : bytes := [0] ++ entries_bytes g_l ++ [0].
Definition g_cu : mcu := MCU None (Some (Some 1)) None None 8.
Ltac nzs := repeat (apply Forall_cons; [discriminate|]); apply Forall_nil.
Ltac hs s := op_ok; match goal with |- holds ?p 8 _ _ => apply (H_string p s); nzs end.
Example C71_macinfo_nonvacuous :
  Forall (entry_ok (Params true 8 4 0) old_standard) g_l /\ at_ g_mem 1 (entries_bytes g_l ++ [0]) /\
  shows (getmacros true (collect (fun _ _ => 0)) [] None (Some (Sec g_mem (zlen g_mem))) g_cu [] 0) =
    [(3, [(15, 2); (15, 3)], two64 - 1); (1, [(15, 5); (8, 6)], two64 - 1); (255, [(15, 11); (8, 12)], two64 - 1); (4, [], two64 - 1)].
Proof.
  split. { apply Forall_cons. { ent. apply Forall_cons; [hu|]. apply Forall_cons; [hu|]. apply Forall_nil. } apply Forall_cons. { ent. apply Forall_cons; [hu|]. apply Forall_cons; [hs [65; 32; 49]|]. apply Forall_nil. }
    apply Forall_cons. { ent. apply Forall_cons; [hu|]. apply Forall_cons; [hs [88]|]. apply Forall_nil. } apply Forall_cons. { ent. apply Forall_nil. } apply Forall_nil. }
  split; [split; [lia|split; [apply Z.leb_le; vm_compute; reflexivity|vm_compute; reflexivity]]|]. vm_compute. reflexivity.
Qed.
(* garbage: an unknown opcode behind an entry *)
Definition j_mem : bytes := [5; 0; 0; 4; 3; 130; 1; 5; 99; 1; 1; 1; 1; 1; 1; 1; 1; 1; 1; 1; 1; 1; 1].
Ltac are_bytes := repeat (apply Forall_cons; [unfold is_u8; lia|]); apply Forall_nil.
Example C71_any_bytes_nonvacuous :
  bytes_ok j_mem /\ 13 + 8 <= zlen j_mem /\ (forall fl, rd true j_mem (0 + 2) 1 = Ok fl -> Z.testbit fl 2 = false) /\
  returned (getmacros_off true (collect (fun _ _ => 0)) [] (Some (Sec j_mem 13)) 0 [] START) = Some (Failed DWARF_E_INVALID_OPCODE) /\
  shows (getmacros_off true (collect (fun _ _ => 0)) [] (Some (Sec j_mem 13)) 0 [] START) = [(4, [], two64 - 1); (3, [(15, 5); (15, 7)], two64 - 1)].
Proof. split; [are_bytes|]. split; [vm_compute; discriminate|]. split; [intros fl H; vm_compute in H; injection H as <-; reflexivity|]. split; vm_compute; reflexivity. Qed.

(* ------------------------------------------------------------------ *)
Definition nothing (a : list macro) (x : macro) : Z := 0.
Definition off_ub (mem : bytes) (e tok : Z) : Prop := getmacros_off true (collect nothing) [] (Some (Sec mem e)) 0 [] tok = UB.
(* An operand table that defines opcode 0 writes in front of the array of the opcodes. *)
Theorem C71_opcode0_refuted : exists mem, bytes_ok mem /\ off_ub mem (zlen mem - 8) START.
Proof. exists [5; 0; 4; 1; 0; 0; 4; 0; 0; 0; 0; 0; 0; 0; 0; 0]. split; [are_bytes|vm_compute; reflexivity]. Qed.
(* A unit that gives operands to all 255 opcodes fails an assertion. *)
Definition all_defined : bytes := [5; 0; 4; 243] ++ concat (map (fun i => [Z.of_nat i; 0]) (seq 13 243)) ++ [4; 0; 0; 0; 0; 0; 0; 0; 0; 0].
Theorem C71_all_defined_refuted : off_ub all_defined (zlen all_defined - 8) START /\ (exists t, get_table true (Sec ([5; 0; 4; 242] ++ concat (map (fun i => [Z.of_nat i; 0]) (seq 13 242)) ++ [4; 0]) 490) 0 None = Ok t /\ forms_of (t_ops t) 254 = Some []).
Proof. split; [vm_compute; reflexivity|]. eexists. split; [vm_compute; reflexivity|vm_compute; reflexivity]. Qed.
(* A number of operands of 2^64 - 1 makes the pointer wrap around. *)
Theorem C71_many_operands_refuted : exists mem, bytes_ok mem /\ off_ub mem (zlen mem - 8) START.
Proof. exists [5; 0; 4; 1; 200; 255; 255; 255; 255; 255; 255; 255; 255; 255; 1; 4; 0; 0; 0; 0; 0; 0; 0; 0; 0]. split; [are_bytes|vm_compute; reflexivity]. Qed.
(* A header that is cut off is read beyond the end of the section: the line offset, the
   number of definitions, the opcode of a definition. *)
Theorem C71_header_refuted : off_ub [5; 0; 2] 3 START /\ off_ub [5; 0; 4] 3 START /\ off_ub [5; 0; 4; 1] 4 START.
Proof. split; [vm_compute; reflexivity|]. split; vm_compute; reflexivity. Qed.
(* A unit of nothing but a header at the end of the section fails an assertion. *)
Theorem C71_empty_refuted : off_ub [5; 0; 0; 0; 0; 0; 0; 0; 0; 0; 0] 3 START /\ returned (getmacros_off true (collect nothing) [] (Some (Sec [5; 0; 0; 0] 4)) 0 [] START) = Some Done.
Proof. split; vm_compute; reflexivity. Qed.
(* If the section ends behind the last entry, without the 0, a token behind that entry is
   returned, and going on from it fails an assertion. *)
Theorem C71_last_refuted : exists mem e tok, returned (getmacros_off true (collect (fun _ _ => 1)) [] (Some (Sec mem e)) 0 [] START) = Some (Stopped tok) /\ off_ub mem e tok.
Proof. exists [5; 0; 0; 4; 0; 0; 0; 0; 0; 0; 0; 0], 4, (4 - two63). split; vm_compute; reflexivity. Qed.
(* Without a section .debug_macro a null pointer is followed. *)
Theorem C71_no_section_refuted : getmacros_off true (collect nothing) [] None 0 [] START = UB /\ getmacros true (collect nothing) [] None None e_cu [] START = UB.
Proof. split; reflexivity. Qed.
(* Two units that name the same macros without a line offset of their own: what the second
   is given has the line offset of the first. *)
Definition s_cu1 : mcu := MCU (Some (Some 11)) None None (Some (Some 0)) 8.
Definition s_cu2 : mcu := MCU (Some (Some 22)) None None (Some (Some 0)) 8.
Definition s_run (h : cache) (c : mcu) : outcome (cache * list macro * ret) := getmacros true (collect nothing) h (Some (Sec [5; 0; 0; 4; 0] 5)) None c [] START.
Theorem C71_shared_line_refuted : shows (s_run [] s_cu2) = [(4, [], 22)] /\ shows (s_run (cache_of (s_run [] s_cu1)) s_cu2) = [(4, [], 11)].
Proof. split; vm_compute; reflexivity. Qed.
