(* Properties C35 and C60 together: the frame computed for an address of a section. *)
From Verif Require Import Base LebModel LebSpec LebProof DwModel Slice CfiModel CfiSpec CfiProof CfiProps NcfiModel NcfiSpec NcfiProof NcfiProps
  FdeModel FdeSpec FdeProof FdeTable FdeProps FrameModel.

(* The unwind information of an FDE: the programs of its CIE and of the FDE itself have the rows of the table.
   The programs mean the same wherever they are (no DW_CFA_set_loc with an address relative to its
   position). *)
Definition frame_rows (c : cfi) (abip : list ins) (abi : bytes) (abi_daf : Z) (f : aframe) (rows : list row) : Prop :=
  exists ciep prog t0 t1, forall e sized n g ci is_, cie_means c (r_acie f) e sized n g ->
    at_ (c_mem c) ci (a_ins (r_acie f)) -> at_ (c_mem c) is_ (r_ins f) ->
    ci + zlen (a_ins (r_acie f)) <= c_dsize c -> is_ + zlen (r_ins f) <= c_dsize c ->
    well_formed (Unwind c abip abi abi_daf (a_caf (r_acie f)) (a_daf (r_acie f)) e ciep (a_ins (r_acie f)) ci
                   prog (r_ins f) is_ (r_start f) (r_start f + r_len f) t0 t1 rows).

Lemma encodes_lift : forall c e e' l p b, (forall q x b, ptr_encodes c e q x b -> ptr_encodes c e' q x b) ->
  encodes_prog c e p l b -> encodes_prog c e' p l b.
Proof.
  intros c e e' l p b L H. induction H as [|p i b l r E H IH]; constructor; [|exact IH].
  inversion E; subst; econstructor; eauto.
Qed.

Lemma frame_of_fde : forall err c abip abi abi_daf f rows same a g,
  is_frame c f g -> frame_rows c abip abi abi_daf f rows -> covers f a ->
  exists fs r,
    (' (init, same) <- initial_state err c (ic_caf (fd_cie g)) (ic_daf (fd_cie g)) (ic_enc (fd_cie g)) abi abi_daf same (ic_ins (fd_cie g)) (ic_end (fd_cie g)) ;;
     frame_at_address err c (Cie (ic_caf (fd_cie g)) (ic_daf (fd_cie g)) (ic_enc (fd_cie g)) (Some init)) init same (fd_start g) (fd_end g) (fd_ins g) (fd_iend g) a)
    = Ok (fs, same) /\
    In r rows /\ CfiSpec.covers r a /\ (forall r', In r' rows -> CfiSpec.covers r' a -> r' = r) /\
    cfa_reported c fs (t_cfa (r_rules r)) /\ (forall n, 0 <= n -> register_reported c same fs n (t_reg (r_rules r) n)) /\
    exists lo, frame_info fs = (lo, r_hi r) /\ lo <= r_lo r.
Proof.
  intros err c abip abi abi_daf f rows same a g (G1 & G2 & G3 & G4 & IE & G5 & G6 & G7 & G8 & G9 & G10 & CE & e & sized & n & M & L) (ciep & prog & t0 & t1 & W) CV.
  specialize (W e sized n (ic_signal (fd_cie g)) (ic_ins (fd_cie g)) (fd_ins g) M G9 G3 ltac:(lia) ltac:(lia)).
  set (u := Unwind c abip abi abi_daf (a_caf (r_acie f)) (a_daf (r_acie f)) (ic_enc (fd_cie g)) ciep (a_ins (r_acie f)) (ic_ins (fd_cie g))
                   prog (r_ins f) (fd_ins g) (r_start f) (r_start f + r_len f) t0 t1 rows).
  assert (WU : well_formed u).
  { destruct W as (W1 & W2 & W3 & W4 & W5 & W6 & W7 & W8 & W9 & W10 & W11 & W12 & W13 & W14). unfold well_formed, u in *.
    cbn [w_c w_abip w_abi w_abidaf w_caf w_daf w_enc w_ciep w_cib w_ci w_prog w_b w_is w_start w_fin w_t0 w_t1 w_rows] in *.
    split; [exact W1|]. split; [exact W2|]. split; [exact W3|]. split; [exact W4|]. split; [exact W5|].
    split; [exact (encodes_lift _ _ _ _ _ _ L W6)|]. split; [exact W7|]. split; [exact W8|]. split; [exact W9|]. split; [exact W10|].
    split; [exact (encodes_lift _ _ _ _ _ _ L W11)|]. split; [exact W12|]. split; [exact W13|exact W14]. }
  destruct (C35_row err u same a WU CV) as (fs & r & R1 & R). exists fs, r. split; [|exact R].
  unfold addrframe, u in R1. cbn [w_c w_abip w_abi w_abidaf w_caf w_daf w_enc w_ciep w_cib w_ci w_prog w_b w_is w_start w_fin w_t0 w_t1 w_rows] in R1.
  rewrite G6, G7, G1, G2, <- G10, <- G4. exact R1.
Qed.

(* dwarf_cfi_addrframe for an address that an FDE of the section covers, after any lookups: the rules of the
   row of its table that contains the address. *)
Theorem C60_frame : forall err c es frames abip abi abi_daf same, holds c es -> frames_of c es frames ->
  forall f rows a, In f frames -> covers f a -> frame_rows c abip abi abi_daf f rows ->
  forall q rs h, lookups c None cache0 q = Ok (rs, h) ->
  exists fs r, cfi_addrframe err c None h abi abi_daf same a = Ok (inl (fs, same)) /\
    In r rows /\ CfiSpec.covers r a /\ (forall r', In r' rows -> CfiSpec.covers r' a -> r' = r) /\
    cfa_reported c fs (t_cfa (r_rules r)) /\ (forall n, 0 <= n -> register_reported c same fs n (t_reg (r_rules r) n)) /\
    exists lo, frame_info fs = (lo, r_hi r) /\ lo <= r_lo r.
Proof.
  intros err c es frames abip abi abi_daf same HH FR f rows a IF CV RW q rs h Q.
  destruct (lookups_ok c es frames HH FR q cache0 es (inv0 c es frames HH FR)) as (rs' & h' & r' & E & I' & _). rewrite Q in E. injection E as <- <-.
  destruct (find_fde_ok c es frames HH FR h r' a I') as (res & h2 & r2 & F & _ & AN). unfold cfi_addrframe. rewrite F. cbn [obind].
  destruct res as [g|e].
  - destruct AN as (f' & IF' & CV' & IS). assert (f' = f) by (destruct FR as (_ & _ & _ & DJ); apply (DJ f' f a); assumption). subst f'.
    destruct (frame_of_fde err c abip abi abi_daf f rows same a g IS RW CV) as (fs & r & R1 & R). exists fs, r. split; [|exact R].
    destruct (initial_state err c _ _ _ _ _ _ _ _) as [[init sm]| | |]; cbn [obind] in *; try discriminate. rewrite R1. reflexivity.
  - exfalso. destruct AN as [_ N]. exact (N f IF CV).
Qed.
Print Assumptions C60_frame.

(* the CIE: CFA = r7 + 8, r16 saved at CFA - 8; the FDE: behind the first byte CFA = r7 + 16 *)
Lemma ex_rows : exists r1 r2, frame_rows ex_cfi [] [] 0 ex_frame [r1; r2] /\
  (r_lo r1, r_hi r1, t_cfa (r_rules r1)) = (8224, 8225, RegOff 7 8) /\ (r_lo r2, r_hi r2, t_cfa (r_rules r2)) = (8225, 8256, RegOff 7 16) /\
  (forall n, t_reg (r_rules r1) n = if n =? 16 then Offset (-8) else Unspecified) /\ (forall n, t_reg (r_rules r2) n = if n =? 16 then Offset (-8) else Unspecified).
Proof.
  pose (ciep := [DefCfa 7 8; IOffset 16 1; Nop; Nop]). pose (prog := [Advance 1; DefCfaOff 16]).
  pose (none := fun _ : Z => Unspecified).
  destruct (play (fixed_ctx ex_cfi 1 (-8) none) no_rules [] ciep) as [t1|] eqn:P; [|vm_compute in P; discriminate].
  destruct (CfiSpec.table (fixed_ctx ex_cfi 1 (-8) (t_reg t1)) 8256 8224 t1 [] prog) as [rows|] eqn:T; [|vm_compute in P; injection P as <-; vm_compute in T; discriminate].
  assert (F : frame_rows ex_cfi [] [] 0 ex_frame rows).
  { exists ciep, prog, no_rules, t1. intros e sized n g ci is_ M A1 A2 L1 L2. unfold well_formed.
    cbn [w_c w_abip w_abi w_abidaf w_caf w_daf w_enc w_ciep w_cib w_ci w_prog w_b w_is w_start w_fin w_t0 w_t1 w_rows].
    split; [constructor|]. split; [constructor|]. split; [vm_compute; reflexivity|]. split; [constructor|]. split; [reflexivity|].
    split.
    { apply (EP_cons ex_cfi e ci (DefCfa 7 8) [12; 7; 8]); [apply (E_def_cfa ex_cfi e ci 7 8 [7] [8]); leb|].
      apply (EP_cons ex_cfi e _ (IOffset 16 1) [144; 1]); [apply (E_off ex_cfi e _ 16 1 [1]); [lia|leb]|].
      apply (EP_cons ex_cfi e _ Nop [0]); [constructor|]. apply (EP_cons ex_cfi e _ Nop [0]); [constructor|]. constructor. }
    split; [exact A1|]. split; [exact L1|].
    split; [repeat constructor; unfold reg_ok, off_ok; cbn; lia|]. split; [exact P|].
    split.
    { apply (EP_cons ex_cfi e is_ (Advance 1) [65]); [apply (E_adv ex_cfi e is_ 1); lia|].
      apply (EP_cons ex_cfi e _ (DefCfaOff 16) [14; 16]); [apply (E_def_cfa_off ex_cfi e _ 16 [16]); leb|]. constructor. }
    split; [exact A2|]. split; [exact L2|]. split; [repeat constructor; unfold reg_ok, off_ok; cbn; lia|].
    split; [exact T|]. vm_compute in P. injection P as <-. vm_compute in T. injection T as <-.
    split; [repeat constructor; cbn; lia|]. cbn. lia. }
  clear - P T F. injection P as <-. cbn in T. injection T as <-. eexists _, _. split; [exact F|]. split; [reflexivity|]. split; [reflexivity|]. split; intros n; reflexivity.
Qed.
Example C60_frame_nonvacuous : exists rows, frame_rows ex_cfi [] [] 0 ex_frame rows /\
  map (fun r => (r_lo r, r_hi r, t_cfa (r_rules r), t_reg (r_rules r) 16)) rows =
    [(8224, 8225, RegOff 7 8, Offset (-8)); (8225, 8256, RegOff 7 16, Offset (-8))] /\
  exists fs, cfi_addrframe 0 ex_cfi None cache0 [] 0 false 8230 = Ok (inl (fs, false)) /\ frame_info fs = (8225, 8256) /\
    frame_cfa fs = Ok (Ops [(146, 7, 16)]).
Proof.
  destruct ex_rows as (r1 & r2 & F & E1 & E2 & G1 & G2). exists [r1; r2]. split; [exact F|]. split; [cbn [map]; rewrite G1, G2; injection E1 as -> -> ->; injection E2 as -> -> ->; reflexivity|].
  eexists. split; [vm_compute; reflexivity|]. split; reflexivity.
Qed.
