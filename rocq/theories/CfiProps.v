(* C35: the frame computed for a PC holds the rules of the table row containing it.
   C36: interpreting a CFI program does not read outside the instructions. *)
From Verif Require Import Base LebModel LebSpec DwModel Slice CfiModel CfiSpec CfiProof CfiSafe.

(* What the accessors tell the user. *)
Definition report_means (c : cfi) (cfa : Z) (r : rep) : where_ :=
  match r with
  | NoOps => Same
  | Ops l => eval_ops cfa None l
  | Block p n v => if (0 <=? p) && (p + n <=? c_dsize c) then ByExpr (zsub (c_mem c) p n) v else Unknown
  end.
(* DW_OP_bregx (0x92) with register and offset; an expression inside the section *)
Definition cfa_reported (c : cfi) (fs : frame) (t : scfa) : Prop :=
  match t with
  | NoCfa => frame_cfa fs = Ok NoOps
  | RegOff r n => frame_cfa fs = Ok (Ops [(146, r, n mod two64)])
  | CfaExpression b => exists p, frame_cfa fs = Ok (Block p (zlen b) false) /\ at_ (c_mem c) p b /\ p + zlen b <= c_dsize c
  | BadCfa => frame_cfa fs = Err DWARF_E_INVALID_CFI
  end.
Definition register_reported (c : cfi) (same : bool) (fs : frame) (n : Z) (t : srule) : Prop :=
  exists rep, frame_register c same fs n = Ok rep /\
    forall cfa, 0 <= cfa < two64 -> report_means c cfa rep = found same cfa t.

(* The unwind information: the backend's default program abip, the CIE's program ciep at ci,
   the FDE's program prog at is_ for the code [start, fin), all well formed, with the rows of
   its table. *)
Record unwind := Unwind {
  w_c : cfi; w_abip : list ins; w_abi : bytes; w_abidaf : Z;
  w_caf : Z; w_daf : Z; w_enc : Z; w_ciep : list ins; w_cib : bytes; w_ci : Z;
  w_prog : list ins; w_b : bytes; w_is : Z; w_start : Z; w_fin : Z; w_t0 : rules; w_t1 : rules; w_rows : list row }.
Definition fixed_ctx (c : cfi) (caf daf : Z) (init : Z -> srule) : context := Context caf daf (addr_width c) init.
Definition well_formed (u : unwind) : Prop :=
  let c := w_c u in
  let none := fun _ : Z => Unspecified in
  encodes_prog c 0 0 (w_abip u) (w_abi u) /\ Forall plain (w_abip u) /\ zlen (w_abi u) < 2 ^ 60 /\
  Forall (supported (fixed_ctx c 1 (w_abidaf u) none)) (w_abip u) /\
  play (fixed_ctx c 1 (w_abidaf u) none) no_rules [] (w_abip u) = Some (w_t0 u) /\
  encodes_prog c (w_enc u) (w_ci u) (w_ciep u) (w_cib u) /\ at_ (c_mem c) (w_ci u) (w_cib u) /\ w_ci u + zlen (w_cib u) <= c_dsize c /\
  Forall (supported (fixed_ctx c (w_caf u) (w_daf u) none)) (w_ciep u) /\
  play (fixed_ctx c (w_caf u) (w_daf u) none) (w_t0 u) [] (w_ciep u) = Some (w_t1 u) /\
  encodes_prog c (w_enc u) (w_is u) (w_prog u) (w_b u) /\ at_ (c_mem c) (w_is u) (w_b u) /\ w_is u + zlen (w_b u) <= c_dsize c /\
  Forall (supported (fixed_ctx c (w_caf u) (w_daf u) (t_reg (w_t1 u)))) (w_prog u) /\
  table (fixed_ctx c (w_caf u) (w_daf u) (t_reg (w_t1 u))) (w_fin u) (w_start u) (w_t1 u) [] (w_prog u) = Some (w_rows u) /\
  forward (w_rows u) /\ 0 <= w_start u /\ w_fin u < two64 /\ 0 <= w_caf u /\ c_dsize c < 2 ^ 60.
(* dwarf_cfi_addrframe once the FDE is found, with a CIE not used before *)
Definition addrframe (err : Z) (u : unwind) (same : bool) (pc : Z) : outcome (frame * bool) :=
  ' (init, same) <- initial_state err (w_c u) (w_caf u) (w_daf u) (w_enc u) (w_abi u) (w_abidaf u) same (w_ci u) (w_ci u + zlen (w_cib u)) ;;
  frame_at_address err (w_c u) (Cie (w_caf u) (w_daf u) (w_enc u) (Some init)) init same (w_start u) (w_fin u) (w_is u) (w_is u + zlen (w_b u)) pc.

Lemma cfa_means_reported : forall c fs t, cfa_means c (f_cfa fs) t -> cfa_reported c fs t.
Proof.
  intros c fs t M. unfold cfa_reported, frame_cfa. destruct t; cbn [cfa_means] in M.
  - rewrite M. reflexivity.
  - rewrite M. reflexivity.
  - destruct M as (p & -> & A & L). exists p. split; [reflexivity|]. split; assumption.
  - rewrite M. reflexivity.
Qed.
Lemma block_at : forall c p n b x v, n = zlen b -> uleb_of (zlen b) x -> at_ (c_mem c) p (x ++ b) -> p + zlen (x ++ b) <= c_dsize c ->
  forall cfa, report_means c cfa (Block (p + zlen x) n v) = ByExpr b v.
Proof.
  intros c p n b x v -> U A L cfa. pose proof (at_app2 _ _ _ _ A) as (P & _ & Q). pose proof (zlen_nonneg _ x). rewrite zlen_app in L.
  unfold report_means. replace ((0 <=? p + zlen x) && (p + zlen x + zlen b <=? c_dsize c)) with true by lia. rewrite Q. reflexivity.
Qed.
Lemma rule_means_reported : forall c same fs n t, 0 <= n -> rule_means c (reg_of (f_regs fs) n) t -> register_reported c same fs n t.
Proof.
  intros c same fs n t N M. unfold register_reported, frame_register. replace (n <? 0) with false by lia. unfold reg_of in M.
  destruct t; cbn [rule_means] in M.
  - destruct (znth (f_regs fs) n) as [r|]; [rewrite M|]; (eexists; split; [reflexivity|]; intros cfa _; destruct same; reflexivity).
  - destruct (znth (f_regs fs) n) as [r|]; [rewrite M|discriminate]. eexists; split; [reflexivity|]; intros cfa _; reflexivity.
  - destruct (znth (f_regs fs) n) as [r|]; [rewrite M|discriminate]. eexists; split; [reflexivity|]; intros cfa _; reflexivity.
  - destruct (znth (f_regs fs) n) as [r|]; [rewrite M|discriminate]. eexists; split; [reflexivity|]; intros cfa C. cbn [report_means found].
    destruct (n0 =? 0) eqn:E; cbn [eval_ops].
    + replace n0 with 0 by lia. rewrite Z.add_0_r, Z.mod_small by exact C. reflexivity.
    + unfold u64; rewrite Zplus_mod_idemp_r. reflexivity.
  - destruct (znth (f_regs fs) n) as [r|]; [rewrite M|discriminate]. eexists; split; [reflexivity|]; intros cfa C. cbn [report_means found].
    destruct (n0 =? 0) eqn:E; cbn [eval_ops app].
    + replace n0 with 0 by lia. rewrite Z.add_0_r, Z.mod_small by exact C. reflexivity.
    + unfold u64. rewrite Zplus_mod_idemp_r. reflexivity.
  - destruct M as [M R]. destruct (znth (f_regs fs) n) as [r0|]; [rewrite M|discriminate]. eexists; split; [reflexivity|]; intros cfa C. cbn [report_means found eval_ops].
    rewrite u64_small by exact R. reflexivity.
  - destruct M as (p & x & M & U & A & L). destruct (znth (f_regs fs) n) as [r0|]; [rewrite M|discriminate].
    rewrite (uleb_at _ _ _ _ _ U (at_app1 _ _ _ _ A)) by (rewrite zlen_app in L; pose proof (zlen_nonneg _ b); lia). cbn [obind].
    eexists; split; [reflexivity|]; intros cfa C. cbn [found]. exact (block_at c p _ b x false eq_refl U A L cfa).
  - destruct M as (p & x & M & U & A & L). destruct (znth (f_regs fs) n) as [r0|]; [rewrite M|discriminate].
    rewrite (uleb_at _ _ _ _ _ U (at_app1 _ _ _ _ A)) by (rewrite zlen_app in L; pose proof (zlen_nonneg _ b); lia). cbn [obind].
    eexists; split; [reflexivity|]; intros cfa C. cbn [found]. exact (block_at c p _ b x true eq_refl U A L cfa).
Qed.

Lemma initial_ok : forall err u same, well_formed u ->
  exists init, initial_state err (w_c u) (w_caf u) (w_daf u) (w_enc u) (w_abi u) (w_abidaf u) same (w_ci u) (w_ci u + zlen (w_cib u)) = Ok (init, same) /\
    frame_means (w_c u) init (w_t1 u).
Proof.
  intros err u same (A1 & A2 & A3 & A4 & A5 & C1 & C2 & C3 & C4 & C5 & F1 & F2 & F3 & F4 & F5 & F6 & F7 & F8 & F9 & F10).
  pose proof (at_bound _ _ _ C2) as [CB1 CB2].
  assert (Z0 : stack_means (w_c u) (State 0 (Frame 0 0 CfaUndef []) [] same) no_rules []).
  { split; [split; [reflexivity|]|constructor]. intros n N. unfold reg_of. cbn [s_fs f_regs]. rewrite znth_out by (change (zlen (@nil rrule)) with 0; lia). reflexivity. }
  assert (S1 : exists fs, (if 0 <? zlen (w_abi u)
                   then execute_cfi err (w_c u) (Cie 1 (w_abidaf u) 0 None) (Frame 0 0 CfaUndef []) same (w_abi u) 0 (zlen (w_abi u)) true 0 (two64 - 1)
                   else Ok (Frame 0 0 CfaUndef [], same)) = Ok (fs, same) /\ frame_means (w_c u) fs (w_t0 u)).
  { destruct (0 <? zlen (w_abi u)) eqn:E.
    - unfold execute_cfi. replace (two64 - 1 <? 0) with false by lia.
      destruct (play_ok err (w_c u) (Cie 1 (w_abidaf u) 0 None) (fixed_ctx (w_c u) 1 (w_abidaf u) (fun _ => Unspecified)) true (w_abi u) (zlen (w_abi u)) (two64 - 1)
                  (w_abip u) 0 (w_abi u) no_rules [] (State 0 (Frame 0 0 CfaUndef []) [] same) (w_t0 u) (S (Z.to_nat (zlen (w_abi u) - 0))) A1 (at_all _)
                  ltac:(lia) ltac:(right; reflexivity) A3 A2 ltac:(lia) eq_refl) as (s' & R1 & R2 & R3); try assumption.
      { split; [reflexivity|]. split; [reflexivity|]. split; [reflexivity|]. intros i Q. discriminate Q. }
      rewrite R1. cbn [obind]. exists (s_fs s'). rewrite R3. split; [reflexivity|exact R2].
    - exists (Frame 0 0 CfaUndef []). split; [reflexivity|].
      assert (w_abip u = []) as N.
      { destruct (w_abip u) as [|i l]; [reflexivity|]. apply encodes_prog_cons in A1 as (b & r & Q0 & Q & _). apply encodes_len in Q. rewrite Q0, zlen_app in E.
        pose proof (zlen_nonneg _ r). lia. }
      rewrite N in A5. injection A5 as <-. exact (proj1 Z0). }
  destruct S1 as (fs & S1 & S2). unfold initial_state. rewrite S1. cbn [obind].
  destruct (w_ci u <? w_ci u + zlen (w_cib u)) eqn:E.
  - unfold execute_cfi. replace (two64 - 1 <? 0) with false by lia.
    destruct (play_ok err (w_c u) (Cie (w_caf u) (w_daf u) (w_enc u) None) (fixed_ctx (w_c u) (w_caf u) (w_daf u) (fun _ => Unspecified)) false (c_mem (w_c u)) 
                  (w_ci u + zlen (w_cib u)) (two64 - 1)
                  (w_ciep u) (w_ci u) (w_cib u) (w_t0 u) [] (State 0 fs [] same) (w_t1 u) (S (Z.to_nat (w_ci u + zlen (w_cib u) - w_ci u))) C1 C2
                  eq_refl ltac:(left; exact C3) ltac:(lia) eq_refl ltac:(lia) eq_refl) as (s' & R1 & R2 & R3); try assumption.
      { split; [reflexivity|]. split; [reflexivity|]. split; [reflexivity|]. intros i Q. discriminate Q. }
      { split; [exact S2|constructor]. }
      rewrite R1. cbn [obind]. exists (s_fs s'). rewrite R3. split; [reflexivity|exact R2].
  - exists fs. split; [reflexivity|].
    assert (w_ciep u = []) as N.
    { destruct (w_ciep u) as [|i l]; [reflexivity|]. apply encodes_prog_cons in C1 as (b & r & Q0 & Q & _). apply encodes_len in Q. rewrite Q0, zlen_app in E.
        pose proof (zlen_nonneg _ r). lia. }
    rewrite N in C5. injection C5 as <-. exact S2.
Qed.
Lemma frame_ok : forall err u same pc, well_formed u -> w_start u <= pc < w_fin u ->
  exists fs r, addrframe err u same pc = Ok (fs, same) /\ In r (w_rows u) /\ covers r pc /\
    (forall r', In r' (w_rows u) -> covers r' pc -> r' = r) /\
    frame_means (w_c u) fs (r_rules r) /\ f_end fs = r_hi r /\ f_start fs <= r_lo r /\
    (~ In RestoreState (w_prog u) -> f_start fs = r_lo r).
Proof.
  intros err u same pc W PC. destruct (initial_ok err u same W) as (init & I1 & I2).
  destruct W as (A1 & A2 & A3 & A4 & A5 & C1 & C2 & C3 & C4 & C5 & F1 & F2 & F3 & F4 & F5 & F6 & F7 & F8 & F9 & F10).
  unfold addrframe. rewrite I1. cbn [obind]. unfold frame_at_address, execute_cfi. replace (pc <? w_start u) with false by lia.
  destruct (loop_ok err (w_c u) (Cie (w_caf u) (w_daf u) (w_enc u) (Some init)) (fixed_ctx (w_c u) (w_caf u) (w_daf u) (t_reg (w_t1 u))) init
              (w_is u + zlen (w_b u)) pc (w_fin u) (w_prog u) (w_is u) (w_b u) (w_t1 u) []
              (State (w_start u) (Frame (w_start u) (w_fin u) (f_cfa init) (f_regs init)) [] same) (w_rows u) (S (Z.to_nat (w_is u + zlen (w_b u) - w_is u)))
              F1 F2 eq_refl F3 ltac:(lia) ltac:(lia) eq_refl) as (s' & r & R1 & R0 & R2 & R3 & R4 & R5 & R6 & R7 & R8); try assumption.
  { split; [reflexivity|]. split; [reflexivity|]. split; [reflexivity|]. intros i Q. injection Q as <-. intros n N. apply (proj2 I2), N. }
  { cbn [s_loc]. lia. } { lia. }
  { split; [exact I2|constructor]. }
  { cbn [s_loc s_fs s_prev]. constructor; [cbn; lia|constructor]. }
  rewrite R1. cbn [obind]. exists (s_fs s'), r. rewrite R0. split; [reflexivity|]. split; [exact R2|]. split; [exact R3|]. split; [exact R4|].
  split; [exact R5|]. split; [exact R6|]. split; [exact R7|]. intros N. apply R8; [exact N|reflexivity].
Qed.

(* ------------------------------------------------------------------ *)
(* C35: for every well-formed unwind information and every PC of the FDE there is exactly
   one row containing the PC, and the frame reports the CFA rule and every register rule of
   that row; its end is the end of the row and its start is not after the row's. *)
Theorem C35_row : forall err u same pc, well_formed u -> w_start u <= pc < w_fin u ->
  exists fs r, addrframe err u same pc = Ok (fs, same) /\
    In r (w_rows u) /\ covers r pc /\ (forall r', In r' (w_rows u) -> covers r' pc -> r' = r) /\
    cfa_reported (w_c u) fs (t_cfa (r_rules r)) /\
    (forall n, 0 <= n -> register_reported (w_c u) same fs n (t_reg (r_rules r) n)) /\
    exists lo, frame_info fs = (lo, r_hi r) /\ lo <= r_lo r.
Proof.
  intros err u same pc W PC. destruct (frame_ok err u same pc W PC) as (fs & r & R1 & R2 & R3 & R4 & R5 & R6 & R7 & R8).
  exists fs, r. split; [exact R1|]. split; [exact R2|]. split; [exact R3|]. split; [exact R4|].
  split; [apply cfa_means_reported, R5|]. split; [intros n N; apply rule_means_reported; [exact N|apply R5, N]|].
  exists (f_start fs). split; [unfold frame_info; rewrite R6; reflexivity|exact R7].
Qed.
Print Assumptions C35_row.

(* The reported range is exactly the row if the FDE's program restores no remembered state. *)
Theorem C35_range_partial : forall err u same pc, well_formed u -> w_start u <= pc < w_fin u -> ~ In RestoreState (w_prog u) ->
  exists fs r, addrframe err u same pc = Ok (fs, same) /\ In r (w_rows u) /\ covers r pc /\ frame_info fs = (r_lo r, r_hi r).
Proof.
  intros err u same pc W PC N. destruct (frame_ok err u same pc W PC) as (fs & r & R1 & R2 & R3 & R4 & R5 & R6 & R7 & R8).
  exists fs, r. split; [exact R1|]. split; [exact R2|]. split; [exact R3|]. unfold frame_info. rewrite R6, (R8 N). reflexivity.
Qed.
Print Assumptions C35_range_partial.

(* An example in the style of x86-64: a function that pushes %rbp, sets up a frame and
   returns. *)
Definition ex_cie : list ins := [DefCfa 7 8; IOffset 16 1].
Definition ex_cib : bytes := [12; 7; 8] ++ [144; 1] ++ [].
Definition ex_prog : list ins := [Advance 1; DefCfaOff 16; IOffset 6 2; Advance 3; DefCfaReg 6; IExpression 3 [119; 8]; Advance 200; DefCfa 7 8].
Definition ex_b : bytes := [65] ++ [14; 16] ++ [134; 2] ++ [67] ++ [13; 6] ++ [16; 3; 2; 119; 8] ++ [2; 200] ++ [12; 7; 8] ++ [].
Definition ex_c : cfi := Cfi (ex_cib ++ ex_b) (zlen (ex_cib ++ ex_b)) true false true 0 0 0.
Definition ex_abip : list ins := [ISameValue 6; IValOffset 7 0].
Definition ex_abi : bytes := [8; 6] ++ [20; 7; 0] ++ [].
Ltac leb1 := split; [cbn; lia|split; [cbn; lia|first [reflexivity|split; [reflexivity|first [lia|vm_compute; reflexivity]]]]].
Ltac ins1 := first [apply E_adv; lia|apply E_adv1; lia|apply E_def_cfa_reg; leb1|apply E_def_cfa_off; leb1|apply E_remember|apply E_restore_state|apply E_undef; leb1|apply E_same; leb1
  |apply (E_off _ _ _ 16); [lia|leb1]|apply (E_off _ _ _ 6); [lia|leb1]|apply (E_def_cfa _ _ _ 7 8 [7] [8]); leb1
  |apply (E_val _ _ _ 7 0 [7] [0]); leb1|apply (E_expr _ _ _ 3 [119; 8] [3] [2]); leb1].
Definition unwind_of (c : cfi) (abip : list ins) (abi : bytes) (abidaf : Z) ciep cib prog b start fin : option unwind :=
  let none := fun _ : Z => Unspecified in
  match play (fixed_ctx c 1 abidaf none) no_rules [] abip with
  | Some t0 => match play (fixed_ctx c 1 (-8) none) t0 [] ciep with
    | Some t1 => match table (fixed_ctx c 1 (-8) (t_reg t1)) fin start t1 [] prog with
      | Some rows => Some (Unwind c abip abi abidaf 1 (-8) 3 ciep cib 0 prog b (zlen cib) start fin t0 t1 rows)
      | None => None end
    | None => None end
  | None => None end.
Definition dummy : unwind := Unwind ex_c [] [] 0 0 0 0 [] [] 0 [] [] 0 0 0 no_rules no_rules [].
Definition ex_u : unwind := match unwind_of ex_c ex_abip ex_abi 8 ex_cie ex_cib ex_prog ex_b 4096 4400 with Some u => u | None => dummy end.
Example C35_nonvacuous : well_formed ex_u /\
  map (fun r => (r_lo r, r_hi r, t_cfa (r_rules r), t_reg (r_rules r) 6)) (w_rows ex_u) =
    [(4096, 4097, RegOff 7 8, SameValue); (4097, 4100, RegOff 7 16, Offset (-16)); (4100, 4300, RegOff 6 16, Offset (-16));
     (4300, 4400, RegOff 7 8, Offset (-16))] /\
  match addrframe 0 ex_u false 4200 with
  | Ok (fs, _) => frame_info fs = (4100, 4300) /\ frame_cfa fs = Ok (Ops [(146, 6, 16)]) /\
                  frame_register ex_c false fs 3 = Ok (Block 16 2 false) /\
                  frame_register ex_c false fs 16 = Ok (Ops [(156, 0, 0); (35, two64 - 8, 0)])
  | _ => False
  end.
Proof.
  split; [|split; [reflexivity|vm_compute; repeat split; reflexivity]].
  unfold well_formed. split; [cbn [w_abip w_abi ex_u]|].
  { change (encodes_prog ex_c 0 0 ex_abip ex_abi). unfold ex_abip, ex_abi. repeat (apply EP_cons; [ins1|]). apply EP_nil. }
  split; [change (Forall plain ex_abip); repeat (constructor; [exact Logic.I|]); constructor|].
  split; [vm_compute; reflexivity|].
  split; [change (Forall (supported (fixed_ctx ex_c 1 8 (fun _ => Unspecified))) ex_abip); repeat (constructor; [cbn; unfold reg_ok, off_ok; lia|]); constructor|].
  split; [reflexivity|].
  split. { change (encodes_prog ex_c 3 0 ex_cie ex_cib). unfold ex_cie, ex_cib. repeat (apply EP_cons; [ins1|]). apply EP_nil. }
  split; [split; [vm_compute; discriminate|split; [vm_compute; discriminate|reflexivity]]|].
  split; [vm_compute; discriminate|].
  split; [change (Forall (supported (fixed_ctx ex_c 1 (-8) (fun _ => Unspecified))) ex_cie); repeat (constructor; [cbn; unfold reg_ok, off_ok; lia|]); constructor|].
  split; [reflexivity|].
  split. { change (encodes_prog ex_c 3 5 ex_prog ex_b). unfold ex_prog, ex_b. repeat (apply EP_cons; [ins1|]). apply EP_nil. }
  split; [split; [vm_compute; discriminate|split; [vm_compute; discriminate|reflexivity]]|].
  split; [vm_compute; discriminate|].
  split; [change (w_prog ex_u) with ex_prog; unfold ex_prog; repeat (constructor; [cbn; unfold reg_ok, off_ok; lia|]); constructor|].
  split; [reflexivity|].
  split; [unfold forward; repeat (apply Forall_cons; [vm_compute; discriminate|]); apply Forall_nil|].
  vm_compute. repeat split; try reflexivity; discriminate.
Qed.

(* After DW_CFA_restore_state the start of the frame is that of the remembered state: the
   reported range contains PCs with other rules. *)
Definition bad_prog : list ins := [Remember; Advance 4; IUndefined 3; Advance 4; RestoreState].
Definition bad_b : bytes := [10] ++ [68] ++ [7; 3] ++ [68] ++ [11] ++ [].
Definition bad_c : cfi := Cfi (ex_cib ++ bad_b) (zlen (ex_cib ++ bad_b)) true false true 0 0 0.
Definition bad_u : unwind := match unwind_of bad_c [] [] 8 ex_cie ex_cib bad_prog bad_b 4096 4112 with Some u => u | None => dummy end.
(* DW_CFA_restore_state brings back the start address of the remembered state: the range reported for a PC also covers PCs with other rules. *)
Theorem C35_range_refuted : exists u same pc fs lo hi, well_formed u /\ w_start u <= pc < w_fin u /\
  addrframe 0 u same pc = Ok (fs, same) /\ frame_info fs = (lo, hi) /\
  exists pc' r r', In r (w_rows u) /\ covers r pc /\ In r' (w_rows u) /\ covers r' pc' /\ lo <= pc' < hi /\
    t_reg (r_rules r) 3 = Unspecified /\ t_reg (r_rules r') 3 = Undefined.
Proof.
  exists bad_u, false, 4106. destruct (addrframe 0 bad_u false 4106) as [[fs sm]| | |] eqn:E; try (vm_compute in E; discriminate).
  exists fs, 4096, 4112. split.
  { unfold well_formed. split; [apply EP_nil|].
    split; [constructor|]. split; [vm_compute; reflexivity|]. split; [constructor|]. split; [reflexivity|].
    split. { change (encodes_prog bad_c 3 0 ex_cie ex_cib). unfold ex_cie, ex_cib. repeat (apply EP_cons; [ins1|]). apply EP_nil. }
    split; [split; [vm_compute; discriminate|split; [vm_compute; discriminate|reflexivity]]|].
    split; [vm_compute; discriminate|].
    split; [change (Forall (supported (fixed_ctx bad_c 1 (-8) (fun _ => Unspecified))) ex_cie); repeat (constructor; [cbn; unfold reg_ok, off_ok; lia|]); constructor|].
    split; [reflexivity|].
    split. { change (encodes_prog bad_c 3 5 bad_prog bad_b). unfold bad_prog, bad_b. repeat (apply EP_cons; [ins1|]). apply EP_nil. }
    split; [split; [vm_compute; discriminate|split; [vm_compute; discriminate|reflexivity]]|].
    split; [vm_compute; discriminate|].
    split; [change (w_prog bad_u) with bad_prog; unfold bad_prog; repeat (constructor; [cbn; unfold reg_ok, off_ok; try lia; try exact Logic.I|]); constructor|].
    split; [reflexivity|].
    split; [unfold forward; repeat (apply Forall_cons; [vm_compute; discriminate|]); apply Forall_nil|].
    vm_compute. repeat split; try reflexivity; discriminate. }
  split; [vm_compute; split; [discriminate|reflexivity]|].
  vm_compute in E. injection E as <- <-. split; [reflexivity|]. split; [reflexivity|].
  exists 4101. do 2 eexists. split; [right; right; left; reflexivity|]. split; [vm_compute; split; [discriminate|reflexivity]|].
  split; [right; left; reflexivity|]. split; [vm_compute; split; [discriminate|reflexivity]|]. split; [lia|]. split; reflexivity.
Qed.
Print Assumptions C35_range_refuted.

(* A DW_CFA_set_loc whose operand cannot be decoded may be taken for the end of the program
   (read_encoded_value failed without an error code): the PC, which is behind the new
   location, gets the rules in force before it. *)
Theorem C35_setloc_refuted : exists c init is_ ie pc fs, 
  znth (c_mem c) is_ = Some 1 /\ (exists e, read_encoded_value c 155 (is_ + 1) = Err e) /\ is_ + 5 < ie /\
  frame_at_address 0 c (Cie 1 1 155 (Some init)) init false 4096 8192 is_ ie pc = Ok (fs, false).
Proof.
  exists (Cfi [1; 255; 255; 0; 0; 12; 7; 8] 8 true false true 0 0 0), (Frame 0 0 CfaUndef []), 0, 8, 8000. eexists.
  split; [reflexivity|]. split; [exists 0; vm_compute; reflexivity|]. split; [lia|]. vm_compute. reflexivity.
Qed.
Print Assumptions C35_setloc_refuted.

(* Offsets that do not fit 61 bits are cut off. *)
Theorem C35_offset_refuted : exists c init b fs, 
  encodes_prog c 3 0 [IOffset 6 (2 ^ 60)] b /\ at_ (c_mem c) 0 b /\
  frame_at_address 0 c (Cie 1 1 3 (Some init)) init false 4096 8192 0 (zlen b) 4096 = Ok (fs, false) /\
  forall rep, frame_register c false fs 6 = Ok rep -> report_means c 0 rep = SavedAt (two64 - 2 ^ 60) /\ found false 0 (Offset (2 ^ 60)) = SavedAt (2 ^ 60).
Proof.
  exists (Cfi ([134; 128; 128; 128; 128; 128; 128; 128; 128; 16] ++ []) 10 true false true 0 0 0), (Frame 0 0 CfaUndef []), ([134; 128; 128; 128; 128; 128; 128; 128; 128; 16] ++ []).
  eexists. split. { apply EP_cons; [|apply EP_nil]. apply (E_off _ _ _ 6); [lia|]. split; [cbn; lia|]. split; [cbn; lia|]. split; [reflexivity|lia]. }
  split; [apply at_all|]. split; [vm_compute; reflexivity|]. intros rep R. vm_compute in R. injection R as <-. split; reflexivity.
Qed.
Print Assumptions C35_offset_refuted.

(* ------------------------------------------------------------------ *)
(* C36.  The interpreter reads at most two bytes behind the instructions and one behind
   the section: if those can be read, every program is interpreted safely and to the end,
   whatever its bytes are. *)
Theorem C36_overread_partial : forall err c k init same start fin is_ ie pc,
  bytes_ok (c_mem c) -> 0 <= is_ <= ie -> ie <= c_dsize c -> c_dsize c + 1 <= zlen (c_mem c) -> ie + 2 <= zlen (c_mem c) ->
  0 <= c_vaddr c < two64 -> ie < 2 ^ 59 -> start <= pc ->
  match frame_at_address err c k init same start fin is_ ie pc with Ok _ | Err _ => True | UB | Fuel => False end.
Proof.
  intros err c k init same start fin is_ ie pc B LI D DM PM V PE ST. unfold frame_at_address, execute_cfi. replace (pc <? start) with false by lia.
  assert (CO : cfi_ok c) by (split; [exact B|]; split; [lia|]; split; assumption).
  pose proof (cfi_loop_safe (S (Z.to_nat (ie - is_))) err c k ie pc is_ (State start (Frame start fin (f_cfa init) (f_regs init)) [] same)
    CO ltac:(lia) PM D PE ltac:(lia)) as L.
  destruct (cfi_loop _ _ _ _ _ _ _ _ _ _); cbn in *; exact L.
Qed.
Print Assumptions C36_overread_partial.
(* The initial instructions of a CIE, provided two bytes behind their end can be read (C36_overread_refuted). *)
Theorem C36_initial_partial : forall err c caf daf enc same ci ce,
  bytes_ok (c_mem c) -> 0 <= ci <= ce -> ce <= c_dsize c -> c_dsize c + 1 <= zlen (c_mem c) -> ce + 2 <= zlen (c_mem c) ->
  0 <= c_vaddr c < two64 -> ce < 2 ^ 59 ->
  match initial_state err c caf daf enc [] 0 same ci ce with Ok _ | Err _ => True | UB | Fuel => False end.
Proof.
  intros err c caf daf enc same ci ce B LI D DM PM V PE. unfold initial_state. cbn [obind zlen length Z.of_nat Z.ltb Z.compare].
  destruct (ci <? ce) eqn:E; [|exact Logic.I]. unfold execute_cfi. replace (two64 - 1 <? 0) with false by lia.
  assert (CO : cfi_ok c) by (split; [exact B|]; split; [lia|]; split; assumption).
  pose proof (cfi_loop_safe (S (Z.to_nat (ce - ci))) err c (Cie caf daf enc None) ce (two64 - 1) ci (State 0 (Frame 0 0 CfaUndef []) [] same)
    CO ltac:(lia) PM D PE ltac:(lia)) as L.
  destruct (cfi_loop _ _ _ _ _ _ _ _ _ _); cbn in *; exact L.
Qed.
Print Assumptions C36_initial_partial.
Example C36_overread_nonvacuous :   (* truncated operands; blocks without their bytes; an unknown opcode *)
  let c b := Cfi (b ++ [0; 0]) (zlen b) true false false 0 0 0 in
  let run b := frame_at_address 0 (c b) (Cie 1 1 3 (Some (Frame 0 0 CfaUndef []))) (Frame 0 0 CfaUndef []) false 0 100 0 (zlen b) 50 in
  bytes_ok (c_mem (c [12; 200; 129; 15; 3; 255; 22; 1; 0; 17; 9; 200])) /\
  match run [12; 200; 129; 15; 3; 255; 22; 1; 0; 17; 9; 200] with Ok (fs, _) => f_cfa fs = CfaOff 245960 3 | _ => False end /\
  (run [12; 200; 129; 15; 3; 255; 22; 1; 9] = Err DWARF_E_INVALID_CFI) /\ (run [63] = Err DWARF_E_INVALID_CFI).
Proof.
  cbv zeta. split; [repeat (constructor; [unfold is_u8; lia|]); constructor|]. split; [vm_compute; reflexivity|]. split; vm_compute; reflexivity.
Qed.

(* A well-formed program is interpreted without reading anything behind it: the statement
   covers memory that ends with the program. *)
Theorem C36_well_formed : forall err u same pc, well_formed u -> w_start u <= pc < w_fin u ->
  exists fs, addrframe err u same pc = Ok (fs, same).
Proof. intros err u same pc W PC. destruct (frame_ok err u same pc W PC) as (fs & r & R & _). exists fs. exact R. Qed.
Print Assumptions C36_well_formed.
Example C36_well_formed_nonvacuous : well_formed ex_u /\ w_is ex_u + zlen (w_b ex_u) = zlen (c_mem (w_c ex_u)).
Proof. split; [exact (proj1 C35_nonvacuous)|vm_compute; reflexivity]. Qed.

(* With nothing behind the instructions a truncated instruction is read outside: the last
   byte asks for an operand.  With one byte behind them DW_CFA_offset_extended_sf still
   does, so the two bytes above are needed. *)
Theorem C36_overread_refuted :
  (exists c k init, bytes_ok (c_mem c) /\ c_dsize c = zlen (c_mem c) /\
     frame_at_address 0 c k init false 0 100 0 (c_dsize c) 50 = UB) /\
  (exists c k init, bytes_ok (c_mem c) /\ c_dsize c + 1 = zlen (c_mem c) /\
     frame_at_address 0 c k init false 0 100 0 (c_dsize c) 50 = UB).
Proof.
  split.
  - exists (Cfi [0; 2] 2 true false true 0 0 0), (Cie 1 1 3 (Some (Frame 0 0 CfaUndef []))), (Frame 0 0 CfaUndef []).
    split; [repeat (constructor; [unfold is_u8; lia|]); constructor|]. split; [reflexivity|]. vm_compute. reflexivity.
  - exists (Cfi [0; 17; 7] 2 true false true 0 0 0), (Cie 1 1 3 (Some (Frame 0 0 CfaUndef []))), (Frame 0 0 CfaUndef []).
    split; [repeat (constructor; [unfold is_u8; lia|]); constructor|]. split; [reflexivity|]. vm_compute. reflexivity.
Qed.
Print Assumptions C36_overread_refuted.
(* A CFA expression accepted by the interpreter may lie outside the section. *)
Theorem C36_block_refuted : exists c k init fs p n, bytes_ok (c_mem c) /\ 0 <= c_dsize c <= zlen (c_mem c) /\
  frame_at_address 0 c k init false 0 100 0 (c_dsize c) 50 = Ok (fs, false) /\ frame_cfa fs = Ok (Block p n false) /\
  0 < n /\ c_dsize c < p.
Proof.
  exists (Cfi [0; 15; 100] 2 true false true 0 0 0), (Cie 1 1 3 (Some (Frame 0 0 CfaUndef []))), (Frame 0 0 CfaUndef []). do 3 eexists.
  split; [repeat (constructor; [unfold is_u8; lia|]); constructor|]. split; [vm_compute; split; discriminate|].
  split; [vm_compute; reflexivity|]. split; [reflexivity|]. vm_compute. split; reflexivity.
Qed.
Print Assumptions C36_block_refuted.
