(* Property C62: unwinding one frame with call frame information. *)
From Coq Require Import ZifyBool ZifyNat.
From Verif Require Import Base LebModel LebSpec LebProof DwModel Slice CfiModel CfiSpec CfiProof CfiProps NcfiModel NcfiSpec NcfiProof NcfiProps
  FdeModel FdeSpec FdeProof FdeTable FdeProps FrameModel FrameProps LocModel EvalModel EvalSpec EvalProof Eval2Proof EvalProps UnwindModel UnwindSpec UnwindProof Unwind2Proof Unwind3Proof.

(* The search table: there is none, or it is that of a well-formed .eh_frame_hdr. *)
Definition table_of (c : cfi) (frames : list aframe) (t : option FdeModel.table) : Prop :=
  t = None \/ exists hdr vaddr, 0 <= c_vaddr c < two64 /\ header_ok c frames hdr vaddr /\ zlen hdr < two63 /\ eh_table c hdr vaddr = Ok (Some t).
Lemma find_any : forall c es frames t, holds c es -> frames_of c es frames -> table_of c frames t ->
  forall q rs h a, lookups c t cache0 q = Ok (rs, h) -> exists res h', find_fde c t h a = Ok (res, h') /\ answers c frames a res.
Proof.
  intros c es frames t HH FR T q rs h a Q. assert (NN : t = None -> exists res h', find_fde c t h a = Ok (res, h') /\ answers c frames a res).
  { intros ->. destruct (lookups_ok c es frames HH FR q cache0 es (inv0 c es frames HH FR)) as (rs' & h' & r' & E & I' & _). rewrite Q in E. injection E as <- <-.
    destruct (find_fde_ok c es frames HH FR h r' a I') as (res & h2 & r2 & F & _ & AN). eauto. }
  destruct T as [T|(hdr & va & VA & HO & HL & ET)]; [exact (NN T)|]. destruct (header_table c frames hdr va HO HL) as (t' & T & TO). rewrite ET in T. injection T as <-. destruct t as [t|]; [|exact (NN eq_refl)].
  destruct (lookups_table c es frames t HH FR TO VA q cache0 es (inv0 c es frames HH FR)) as (rs' & h' & r' & E & I' & _). rewrite Q in E. injection E as <- <-.
  destruct (find_fde_table c es frames t HH FR TO VA h r' a I') as (res & h2 & r2 & F & _ & AN). eauto.
Qed.

(* A frame to unwind: the section c with the FDE f, which covers the address a, its row r; the backend, the
   registers and the memory m, of which e is the abstract view. *)
Record scene (c : cfi) (frames : list aframe) (t : option FdeModel.table) (h : cache) (abi : bytes) (abi_daf : Z) (m : mach) (e : env) (f : aframe) (r : row) (a : Z) : Prop := {
  sc_es : exists es q rs, holds c es /\ frames_of c es frames /\ table_of c frames t /\ lookups c t cache0 q = Ok (rs, h);
  sc_f : In f frames; sc_a : FdeSpec.covers f a;
  sc_rows : exists abip rows, frame_rows c abip abi abi_daf f rows /\ In r rows;
  sc_r : CfiSpec.covers r a;
  sc_size : c_dsize c <= zlen (c_mem c) < 2 ^ 62;
  sc_fits : fits m (c_c32 c) e;
  sc_mask : 0 <= b_mask (h_ebl m);
  sc_ra : 0 <= a_ra (r_acie f);
  sc_plain : plain_rules c (r_rules r) }.

Lemma scene_frame : forall err same c frames t h abi abi_daf m e f r a, scene c frames t h abi abi_daf m e f r a ->
  exists fs sg, handle_cfi m err c t h abi abi_daf same a = (u <- unwind_frame m c same fs (a_ra (r_acie f)) sg ;; Ok (Some u)) /\
    (exists e s n, cie_means c (r_acie f) e s n sg) /\
    cfa_reported c fs (t_cfa (r_rules r)) /\ (forall n, 0 <= n -> register_reported c same fs n (t_reg (r_rules r) n)).
Proof.
  intros err same c frames t h abi abi_daf m e f r a [(es & q & rs & HH & FR & TT & Q) IF CV (abip & rows & RW & IR) CR _ _ _ _ _].
  destruct (find_any c es frames t HH FR TT q rs h a Q) as (res & h2 & F & AN). unfold handle_cfi, cfi_addrframe. rewrite F. cbn [obind].
  destruct res as [g|x]; [|exfalso; destruct AN as [_ N]; exact (N f IF CV)]. destruct AN as (f' & IF' & CV' & IS). assert (f' = f) by (destruct FR as (_ & _ & _ & DJ); apply (DJ f' f a); assumption). subst f'.
  destruct (frame_of_fde err c abip abi abi_daf f rows same a g IS RW CV) as (fs & r' & R1 & _ & _ & UN & R2 & R3 & _). rewrite <- (UN r IR CR) in R2, R3.
  exists fs, (ic_signal (fd_cie g)). split; [|split; [|split; assumption]].
  - destruct IS as (_ & _ & _ & _ & _ & _ & _ & _ & RA & _). rewrite RA. destruct (initial_state err c _ _ _ _ _ _ _ _) as [[init sm]| | |]; cbn [obind] in *; try discriminate. rewrite R1. reflexivity.
  - destruct IS as (_ & _ & _ & _ & _ & _ & _ & _ & _ & _ & _ & _ & x & s & n & M & _). eauto.
Qed.
Lemma scene_inv : forall err same c frames t h abi abi_daf m e f r a u, scene c frames t h abi abi_daf m e f r a ->
  handle_cfi m err c t h abi abi_daf same a = Ok (Some u) ->
  let b := h_ebl m in let cra := a_ra (r_acie f) in let ra := match b_regno b (u32 cra) with Some k => k | None => u32 cra end in
  exists rs un, loop_inv m c e same (r_rules r) cra (b_nregs b) (n_regs u, rs, un) /\
    (exists e s n, cie_means c (r_acie f) e s n (n_signal u)) /\
    n_pc u = if un then PcUndefined else match known b (n_regs u) (u32 cra) with
                      | Some v => if v =? 0 then PcUndefined else PcSet ((v + b_raoff b) mod two64)
                      | None => match b_regno b (u32 cra) with
                                | Some r => if b_nregs b <=? r then PcError else PcUndefined
                                | None => PcError
                                end end.
Proof.
  intros err same c frames t h abi abi_daf m e f r a u SC H b cra ra. destruct (scene_frame err same _ _ _ _ _ _ _ _ _ _ _ SC) as (fs & sg & HC & SG & CR & RR). rewrite HC in H.
  destruct SC as [_ _ _ _ _ [DS SZ] FIT MK _ PL]. unfold unwind_frame in H. fold b cra ra in H.
  destruct (each _ _ _ _ _ _ _ _ _) as [[[g rs] un]| | |] eqn:E; cbn [obind] in H; try discriminate H.
  pose proof (all_ok m c e fs same (r_rules r) cra FIT SZ DS CR RR PL MK _ E) as IV. exists rs, un. destruct un.
  - injection H as <-. cbn [n_regs n_signal n_pc]. auto.
  - destruct IV as (RO & IV). rewrite (reg_get_known _ _ _ RO) in H. cbn [obind] in H. injection H as <-. cbn [n_regs n_signal n_pc]. split; [exact (conj RO IV)|]. split; [exact SG|]. reflexivity.
Qed.

(* Of the registers that the backend has, and that no other DWARF number stands for, exactly those are known in
   the frame of the caller that have a value by the rules, with that value.  Partial: the expressions are within
   the limits of C61 (caller_within), and the rules are plain: no empty expression. *)
Theorem C62_registers_partial : forall err same c frames t h abi abi_daf m e f r a u, scene c frames t h abi abi_daf m e f r a ->
  handle_cfi m err c t h abi abi_daf same a = Ok (Some u) ->
  forall n k v, 0 <= n < b_nregs (h_ebl m) -> b_regno (h_ebl m) n = Some k -> k < b_nregs (h_ebl m) -> alone (h_ebl m) n ->
  known (h_ebl m) (n_regs u) n = Some v <->
  exists w, caller_within (h_big m) c e same (r_rules r) n w /\ v = kept (h_ebl m) (a_ra (r_acie f)) n w.
Proof.
  intros err same c frames t h abi abi_daf m e f r a u SC H n k v N K KL AL. destruct (scene_inv _ _ _ _ _ _ _ _ _ _ _ _ _ _ SC H) as (rs & un & (_ & A & _) & _). exact (A n v k N AL K KL).
Qed.
Print Assumptions C62_registers_partial.

Lemma within_has : forall big c e same t n w, caller_within big c e same t n w -> caller_has c e same t n w.
Proof.
  intros big c e same t n w. assert (CW : forall x, cfa_within big c e t x -> cfa_of c e t x).
  { intros x. unfold cfa_within, cfa_of. destruct (t_cfa t); cbn [cfa_is]; auto. intros (l & EX & Y). exists l. split; [exact EX|]. eapply within_yields; [|exact Y]. intros y []. }
  unfold caller_within, caller_has. destruct (t_reg t n); cbn [caller]; auto.
  - intros (x & X & Y). eauto.
  - intros (x & X & Y). eauto.
  - intros (l & EX & Y). exists l. split; [exact EX|]. eapply within_yields; [exact CW|exact Y].
  - intros (l & EX & Y). exists l. split; [exact EX|]. eapply within_yields; [exact CW|exact Y].
Qed.
(* No value is made up: every known register of the caller's frame has the value that the rule of a DWARF number
   of it gives. *)
Theorem C62_sound : forall err same c frames t h abi abi_daf m e f r a u, scene c frames t h abi abi_daf m e f r a ->
  handle_cfi m err c t h abi abi_daf same a = Ok (Some u) ->
  forall n v, known (h_ebl m) (n_regs u) n = Some v ->
  exists n' w, 0 <= n' < b_nregs (h_ebl m) /\ b_regno (h_ebl m) n' = b_regno (h_ebl m) n /\
    caller_has c e same (r_rules r) n' w /\ v = kept (h_ebl m) (a_ra (r_acie f)) n' w.
Proof.
  intros err same c frames t h abi abi_daf m e f r a u SC H n v K. destruct (scene_inv _ _ _ _ _ _ _ _ _ _ _ _ _ _ SC H) as (rs & un & (_ & _ & B & _) & _).
  destruct (B n v K) as (n' & w & I0 & E & W & V). exists n', w. split; [exact I0|]. split; [exact E|]. split; [exact (within_has _ _ _ _ _ _ _ W)|exact V].
Qed.
Print Assumptions C62_sound.

(* The register of the return address has the value of the CIE's number for it, whatever other DWARF numbers the
   backend has for it. *)
Theorem C62_return_address : forall err same c frames t h abi abi_daf m e f r a u, scene c frames t h abi abi_daf m e f r a ->
  handle_cfi m err c t h abi abi_daf same a = Ok (Some u) ->
  let ra := a_ra (r_acie f) in forall k w, ra < b_nregs (h_ebl m) -> b_regno (h_ebl m) ra = Some k -> k < b_nregs (h_ebl m) ->
  caller_within (h_big m) c e same (r_rules r) ra w -> known (h_ebl m) (n_regs u) ra = Some (kept (h_ebl m) ra ra w).
Proof.
  intros err same c frames t h abi abi_daf m e f r a u SC H ra k w L K KL W. destruct (scene_inv _ _ _ _ _ _ _ _ _ _ _ _ _ _ SC H) as (rs & un & (_ & _ & _ & _ & D & _) & _).
  pose proof (sc_ra _ _ _ _ _ _ _ _ _ _ _ SC). exact (proj1 (D w k ltac:(unfold ra in L; lia) W K KL)).
Qed.
Print Assumptions C62_return_address.

(* The pc of the caller: the value of the return address register, cut to an address, plus the offset of the
   backend; undefined when that value is 0 or there is none.  Partial: the backend numbers the register as the CIE does, or the register
   with the backend's number has a value by its rule. *)
Theorem C62_pc_partial : forall err same c frames t h abi abi_daf m e f r a u, scene c frames t h abi abi_daf m e f r a ->
  handle_cfi m err c t h abi abi_daf same a = Ok (Some u) ->
  let ra := a_ra (r_acie f) in let b := h_ebl m in
  forall k, ra < b_nregs b -> b_regno b ra = Some k -> k < b_nregs b -> alone b ra ->
  k = ra \/ (exists w, caller_within (h_big m) c e same (r_rules r) k w) ->
  (forall p, n_pc u = PcSet p <-> exists w, caller_within (h_big m) c e same (r_rules r) ra w /\
                                    kept b ra ra w <> 0 /\ p = (kept b ra ra w + b_raoff b) mod two64) /\
  (n_pc u = PcUndefined <-> forall w, caller_within (h_big m) c e same (r_rules r) ra w -> kept b ra ra w = 0).
Proof.
  intros err same c frames t h abi abi_daf m e f r a u SC H ra b k L K KL AL KR. destruct (scene_inv _ _ _ _ _ _ _ _ _ _ _ _ _ _ SC H) as (rs & un & (RO & A & _ & _ & D & E) & _ & PC).
  pose proof (sc_ra _ _ _ _ _ _ _ _ _ _ _ SC) as R0. destruct RO as (NR & _). fold ra b in PC, A, D, E, R0, NR. replace (u32 ra) with ra in PC, E by (unfold u32; rewrite Z.mod_small; lia). rewrite K in PC, E.
  replace (b_nregs b <=? k) with false in PC by lia.
  assert (UN : un = true -> forall w, ~ caller_within (h_big m) c e same (r_rules r) ra w).
  { intros U. apply E in U. destruct U as [_ G]. destruct KR as [->|[w W]]; [|exfalso; exact (gone_has m c e same (r_rules r) k w G W)]. intros w. exact (gone_has m c e same (r_rules r) ra w G). }
  specialize (A ra). destruct un.
  - specialize (UN eq_refl). rewrite PC. split; [|split; [|reflexivity]].
    + intros p. split; [discriminate|]. intros (w & W & _). exfalso. exact (UN w W).
    + intros _ w W. exfalso. exact (UN w W).
  - destruct (known b (n_regs u) ra) as [v|] eqn:KN.
    + destruct (proj1 (A v k ltac:(lia) AL K KL) eq_refl) as (w & W & ->).
      assert (UQ : forall w', caller_within (h_big m) c e same (r_rules r) ra w' -> kept b ra ra w' = kept b ra ra w).
      { intros w' W'. assert (X : Some (kept b ra ra w) = Some (kept b ra ra w')) by (rewrite <- KN; fold b in A; rewrite KN; apply (A (kept b ra ra w') k ltac:(lia) AL K KL); eauto). congruence. }
      destruct (Z.eqb_spec (kept b ra ra w) 0) as [Z0|NZ]; rewrite PC.
      * split; [|split; [|reflexivity]].
        -- intros p. split; [discriminate|]. intros (w' & W' & NZ & _). exfalso. rewrite (UQ w' W') in NZ. exact (NZ Z0).
        -- intros _ w' W'. rewrite (UQ w' W'). exact Z0.
      * split; [|split; [discriminate|]].
        -- intros p. split; [intros Q; injection Q as <-; eauto|]. intros (w' & W' & _ & ->). rewrite (UQ w' W'). reflexivity.
        -- intros X. exfalso. exact (NZ (X w W)).
    + assert (NO : forall w, ~ caller_within (h_big m) c e same (r_rules r) ra w).
      { intros w W. assert (X : None = Some (kept b ra ra w)) by (apply (A (kept b ra ra w) k ltac:(lia) AL K KL); eauto). discriminate. }
      rewrite PC. split; [|split; [|reflexivity]].
      * intros p. split; [discriminate|]. intros (w & W & _). exfalso. exact (NO w W).
      * intros _ w W. exfalso. exact (NO w W).
Qed.
Print Assumptions C62_pc_partial.

(* If the backend does not have the return address register, no pc is reported. *)
Theorem C62_no_register : forall err same c frames t h abi abi_daf m e f r a u, scene c frames t h abi abi_daf m e f r a ->
  handle_cfi m err c t h abi abi_daf same a = Ok (Some u) ->
  let ra := a_ra (r_acie f) in (forall k, b_regno (h_ebl m) (u32 ra) = Some k -> b_nregs (h_ebl m) <= k) -> forall p, n_pc u <> PcSet p.
Proof.
  intros err same c frames t h abi abi_daf m e f r a u SC H ra NK p Q. destruct (scene_inv _ _ _ _ _ _ _ _ _ _ _ _ _ _ SC H) as (rs & un & _ & _ & PC). fold ra in PC. rewrite Q in PC. unfold known in PC.
  destruct un; [discriminate|]. destruct (b_regno (h_ebl m) (u32 ra)) as [k|]; [|discriminate]. specialize (NK k eq_refl). replace (k <? b_nregs (h_ebl m)) with false in PC by lia. cbn [andb] in PC. replace (b_nregs (h_ebl m) <=? k) with true in PC by lia. discriminate.
Qed.
Print Assumptions C62_no_register.

(* The frame is a signal frame if the augmentation of its CIE says so. *)
Theorem C62_signal : forall err same c frames t h abi abi_daf m e f r a u, scene c frames t h abi abi_daf m e f r a ->
  handle_cfi m err c t h abi abi_daf same a = Ok (Some u) -> exists x s n, cie_means c (r_acie f) x s n (n_signal u).
Proof.
  intros err same c frames t h abi abi_daf m e f r a u SC H. destruct (scene_inv _ _ _ _ _ _ _ _ _ _ _ _ _ _ SC H) as (rs & un & _ & SG & _). exact SG.
Qed.
Print Assumptions C62_signal.

(* Unwinding is defined, and makes a frame, for every covered address as long as the expressions are defined. *)
Theorem C62_defined : forall err same c frames t h abi abi_daf m e f r a, scene c frames t h abi abi_daf m e f r a ->
  rules_defined (h_big m) c e (r_rules r) -> exists u, handle_cfi m err c t h abi abi_daf same a = Ok (Some u).
Proof.
  intros err same c frames t h abi abi_daf m e f r a SC RD. destruct (scene_frame err same _ _ _ _ _ _ _ _ _ _ _ SC) as (fs & sg & HC & SG & CR & RR). rewrite HC.
  destruct SC as [_ _ _ _ _ [DS SZ] FIT MK _ PL]. set (cra := a_ra (r_acie f)). set (b := h_ebl m). destruct FIT as (RO & FIT'). assert (FIT : fits m (c_c32 c) e) by exact (conj RO FIT'). destruct RO as (NR & _ & _ & _ & _ & NN). fold b in NR, NN.
  assert (I0 : loop_inv m c e same (r_rules r) cra 0 (new_regs b, false, false)).
  { destruct (new_regs_ok b NR NN) as [RO KN]. split; [exact RO|]. split; [intros; lia|]. split; [intros n v V; rewrite KN in V; discriminate|]. split; [discriminate|]. split; [intros; lia|]. split; [discriminate|lia]. }
  destruct (each_good m c e fs same (r_rules r) cra FIT SZ DS CR RR PL MK RD (Z.to_nat (b_nregs b)) 0 _ ltac:(lia) ltac:(fold b; lia) I0) as ([[g rs] un] & E).
  unfold unwind_frame. fold b cra in E |- *. rewrite E. cbn [obind]. pose proof (all_ok m c e fs same (r_rules r) cra FIT SZ DS CR RR PL MK _ E) as (RO & _). destruct un; [eexists; reflexivity|].
  rewrite (reg_get_known _ _ _ RO). cbn [obind]. eexists; reflexivity.
Qed.
Print Assumptions C62_defined.

(* An address that no FDE covers gives no frame. *)
Theorem C62_none : forall err same c es frames t abi abi_daf m a q rs h, holds c es -> frames_of c es frames -> table_of c frames t ->
  lookups c t cache0 q = Ok (rs, h) -> (forall f, In f frames -> ~ FdeSpec.covers f a) -> handle_cfi m err c t h abi abi_daf same a = Ok None.
Proof.
  intros err same c es frames t abi abi_daf m a q rs h HH FR TT Q NO. destruct (find_any c es frames t HH FR TT q rs h a Q) as (res & h2 & F & AN). unfold handle_cfi, cfi_addrframe. rewrite F. cbn [obind].
  destruct res as [g|x]; [exfalso; destruct AN as (f & IF & CV & _); exact (NO f IF CV)|reflexivity].
Qed.
Print Assumptions C62_none.

(* ---------------------------------------------------------------- examples *)
(* In the second row of ex_frame: CFA = r7 + 16, r16, which is the return address, saved at CFA - 8; the other
   registers keep their values.  Every byte of the memory is 1. *)
Lemma ex_scene : exists r, scene ex_cfi [ex_frame] None cache0 [] 0 (ex_mach false) (ex_env false 64) ex_frame r 8230 /\
  t_cfa (r_rules r) = RegOff 7 16 /\ (forall n, t_reg (r_rules r) n = if n =? 16 then Offset (-8) else Unspecified).
Proof.
  destruct ex_rows as (r1 & r2 & F & _ & E2 & _ & G2). injection E2 as L H C. exists r2. split; [|split; [exact C|exact G2]]. constructor.
  - exists ex_es, [], []. split; [exact ex_holds|]. split; [exact ex_frames|]. split; [left; reflexivity|reflexivity].
  - left. reflexivity.
  - unfold FdeSpec.covers. cbn [r_start r_len ex_frame]. lia.
  - exists [], [r1; r2]. split; [exact F|]. right. left. reflexivity.
  - unfold CfiSpec.covers. lia.
  - split; [vm_compute; discriminate|vm_compute; reflexivity].
  - exact (ex_fits false).
  - vm_compute. discriminate.
  - vm_compute. discriminate.
  - split; [rewrite C; cbn; lia|]. intros n. rewrite G2. destruct (n =? 16); exact Logic.I.
Qed.
Definition ex_unwound : unwound :=
  Unwound (Regs [131071; 0; 0] [4294967295; 1; 2; 3; 4; 5; 6; 28672; 8; 9; 10; 11; 12; 13; 14; 15; 72340172838076673]) (PcSet 72340172838076673) false.
Lemma ex_handle : handle_cfi (ex_mach false) 0 ex_cfi None cache0 [] 0 true 8230 = Ok (Some ex_unwound).
Proof. vm_compute. reflexivity. Qed.
Lemma ex_alone : forall n, 0 <= n < 17 -> alone (ex_ebl false) n.
Proof. intros n N k K. cbn [b_nregs ex_ebl] in K. cbn [b_regno ex_ebl]. replace ((0 <=? k) && (k <? 17)) with true by lia. replace ((0 <=? n) && (n <? 17)) with true by lia. congruence. Qed.
Example C62_registers_partial_nonvacuous : exists r, scene ex_cfi [ex_frame] None cache0 [] 0 (ex_mach false) (ex_env false 64) ex_frame r 8230 /\
  handle_cfi (ex_mach false) 0 ex_cfi None cache0 [] 0 true 8230 = Ok (Some ex_unwound) /\ (forall n, 0 <= n < 17 -> alone (ex_ebl false) n) /\
  known (ex_ebl false) (n_regs ex_unwound) 7 = Some 28672 /\ known (ex_ebl false) (n_regs ex_unwound) 16 = Some 72340172838076673.
Proof. destruct ex_scene as (r & SC & _). exists r. split; [exact SC|]. split; [exact ex_handle|]. split; [exact ex_alone|]. split; vm_compute; reflexivity. Qed.
Lemma ex_value : forall r, t_cfa (r_rules r) = RegOff 7 16 -> (forall n, t_reg (r_rules r) n = if n =? 16 then Offset (-8) else Unspecified) ->
  caller_within false ex_cfi (ex_env false 64) true (r_rules r) 16 72340172838076673.
Proof.
  intros r C G. unfold caller_within, cfa_within. rewrite C, G. cbn [Z.eqb caller cfa_is]. exists 28688. split; [exists 28672; split; reflexivity|]. apply ones_reads; [reflexivity|reflexivity|cbn; lia|reflexivity].
Qed.
Example C62_sound_nonvacuous : exists r, scene ex_cfi [ex_frame] None cache0 [] 0 (ex_mach false) (ex_env false 64) ex_frame r 8230 /\
  caller_has ex_cfi (ex_env false 64) true (r_rules r) 16 72340172838076673.
Proof. destruct ex_scene as (r & SC & C & G). exists r. split; [exact SC|]. exact (within_has _ _ _ _ _ _ _ (ex_value r C G)). Qed.
Example C62_return_address_nonvacuous : exists r, scene ex_cfi [ex_frame] None cache0 [] 0 (ex_mach false) (ex_env false 64) ex_frame r 8230 /\
  a_ra (r_acie ex_frame) = 16 /\ caller_within false ex_cfi (ex_env false 64) true (r_rules r) 16 72340172838076673 /\
  kept (ex_ebl false) 16 16 72340172838076673 = 72340172838076673.
Proof. destruct ex_scene as (r & SC & C & G). exists r. split; [exact SC|]. split; [reflexivity|]. split; [exact (ex_value r C G)|vm_compute; reflexivity]. Qed.
Example C62_pc_partial_nonvacuous : n_pc ex_unwound = PcSet 72340172838076673 /\ b_regno (ex_ebl false) 16 = Some 16.
Proof. split; reflexivity. Qed.
Example C62_signal_nonvacuous : cie_means ex_cfi (r_acie ex_frame) 27 true 0 (n_signal ex_unwound).
Proof. exact ex_means. Qed.
Example C62_defined_nonvacuous : exists r, scene ex_cfi [ex_frame] None cache0 [] 0 (ex_mach false) (ex_env false 64) ex_frame r 8230 /\
  rules_defined false ex_cfi (ex_env false 64) (r_rules r).
Proof. destruct ex_scene as (r & SC & C & G). exists r. split; [exact SC|]. split; [rewrite C; exact Logic.I|]. intros n. rewrite G. destruct (n =? 16); exact Logic.I. Qed.
Example C62_none_nonvacuous : (forall f, In f [ex_frame] -> ~ FdeSpec.covers f 8256) /\ handle_cfi (ex_mach false) 0 ex_cfi None cache0 [] 0 true 8256 = Ok None.
Proof. split; [intros f [<-|[]]; unfold FdeSpec.covers; cbn [r_start r_len ex_frame]; lia|vm_compute; reflexivity]. Qed.
(* a backend without register 16 *)
Definition ex_small : mach := Mach (Ebl 16 (fun r => if (0 <=? r) && (r <? 16) then Some r else None) false (two64 - 1) 0)
  (Regs [65535; 0; 0] [4294967295; 1; 2; 3; 4; 5; 6; 28672; 8; 9; 10; 11; 12; 13; 14; 15]) (Some (fun _ => Some 72340172838076673)) false 0.
Example C62_no_register_nonvacuous : (forall k, b_regno (h_ebl ex_small) (u32 (a_ra (r_acie ex_frame))) = Some k -> b_nregs (h_ebl ex_small) <= k) /\
  exists g, handle_cfi ex_small 0 ex_cfi None cache0 [] 0 true 8230 = Ok (Some (Unwound g PcError false)).
Proof. split; [intros k K; vm_compute in K; discriminate|]. eexists. vm_compute. reflexivity. Qed.

(* ---------------------------------------------------------------- what fails *)
(* An expression without operations means the CFA itself as the place of the register.  handle_cfi takes the register
   as undefined. *)
Theorem C62_empty_refuted : exists m c e fs t u v, fits m (c_c32 c) e /\ cfa_reported c fs (t_cfa t) /\
  (forall n, 0 <= n -> register_reported c true fs n (t_reg t n)) /\
  t_reg t 16 = Expression [] /\ yields e (cfa_of c e t) (reg_program [] false []) v /\
  unwind_frame m c true fs 16 false = Ok u /\ known (h_ebl m) (n_regs u) 16 = None /\ n_pc u = PcUndefined.
Proof.
  pose (c := Cfi [0] 1 true false true 0 0 0). pose (fs := Frame 0 16 (CfaOff 7 16) (repeat RUnspec 16 ++ [RExpr 0])).
  pose (t := Rules (RegOff 7 16) (fun n => if n =? 16 then Expression [] else Unspecified)).
  exists (ex_mach false), c, (ex_env false 64), fs, t, (Unwound (Regs [65535; 0; 0] [4294967295; 1; 2; 3; 4; 5; 6; 28672; 8; 9; 10; 11; 12; 13; 14; 15; 0]) PcUndefined false), 72340172838076673.
  split; [exact (ex_fits false)|]. split; [reflexivity|]. split.
  - intros n N. apply rule_means_reported; [exact N|]. cbn [t_reg t]. destruct (Z.eqb_spec n 16) as [->|NE].
    + cbn [rule_means]. exists 0, [0]. split; [reflexivity|]. split; [leb|]. split; [|vm_compute; discriminate]. exact (at_intro [] [0] []).
    + cbn [rule_means fs f_regs]. unfold reg_of. destruct (Z_lt_ge_dec n 16); [rewrite znth_app_l by (rewrite zlen_repeat; lia); rewrite znth_repeat by lia; reflexivity|]. destruct (znth _ n) eqn:Q; [|reflexivity]. apply znth_range in Q. change (zlen _) with 17 in Q. lia.
  - split; [reflexivity|]. split; [|split; [vm_compute; reflexivity|split; reflexivity]].
    exists 1%nat, [28688], true. split; [eapply steps_more; [eapply goes_cfa; [reflexivity|exists 28672; split; reflexivity]|apply steps_none]|]. exists 28688, []. split; [reflexivity|]. apply ones_reads; [reflexivity|reflexivity|cbn; lia|reflexivity].
Qed.
Print Assumptions C62_empty_refuted.

(* A backend with two DWARF numbers for its register 2, as the backends of PowerPC have 65 and 108 for the link
   register; here 2 and 3.  r7 = 0x7000; every byte of the memory is 1. *)
Definition two_ebl : ebl := Ebl 8 (fun r => if r =? 3 then Some 2 else if (0 <=? r) && (r <? 8) then Some r else None) false (two64 - 1) 0.
Definition two_regs : regs := Regs [247; 0; 0] [0; 1; 4660; 0; 4; 5; 6; 28672].
Definition two_mach : mach := Mach two_ebl two_regs (Some (fun _ => Some 72340172838076673)) false 0.
Definition two_env : env := Env (known two_ebl two_regs) (fun _ => Some 1) 8 true 0 64.
Lemma two_fits : fits two_mach false two_env.
Proof.
  split; [|split; [reflexivity|]].
  - split; [cbn; lia|]. split; [reflexivity|]. split; [reflexivity|]. split; [repeat constructor; unfold is_u64; lia|]. split; [repeat constructor; lia|].
    intros r k. cbn [b_regno two_mach two_ebl h_ebl]. destruct (r =? 3); [intros Q; injection Q as <-; lia|]. destruct (_ && _) eqn:E; [|discriminate]. intros Q. injection Q as <-. lia.
  - split; [reflexivity|]. split; [reflexivity|]. split; [reflexivity|]. split; [reflexivity|]. split; [intros a x Q; injection Q as <-; unfold is_u8; lia|].
    intros a v A. rewrite ones_reads by (try reflexivity; cbn; lia). split; [intros ->; eexists; split; reflexivity|]. intros (rd & Q & V). injection Q as <-. injection V as <-. reflexivity.
Qed.
(* The return address is undefined by its rule (the end of the stack), but the other number for the register keeps
   its value: that value becomes the pc of the caller. *)
Theorem C62_two_numbers_refuted : exists m c e fs t u, fits m (c_c32 c) e /\ plain_rules c t /\ cfa_reported c fs (t_cfa t) /\
  (forall n, 0 <= n -> register_reported c false fs n (t_reg t n)) /\
  t_reg t 3 = Undefined /\ b_regno (h_ebl m) 3 = Some 2 /\ unwind_frame m c false fs 3 false = Ok u /\ n_pc u = PcSet 4660.
Proof.
  pose (c := Cfi [0] 1 true false true 0 0 0). pose (fs := Frame 0 16 (CfaOff 7 16) [RUnspec; RUnspec; RSame; RUndef]).
  pose (t := Rules (RegOff 7 16) (fun n => if n =? 2 then SameValue else if n =? 3 then Undefined else Unspecified)).
  exists two_mach, c, two_env, fs, t, (Unwound (Regs [4; 0; 0] [0; 0; 4660; 0; 0; 0; 0; 0]) (PcSet 4660) false).
  split; [exact two_fits|]. split; [split; [cbn; lia|intros n; cbn [t_reg t]; destruct (n =? 2), (n =? 3); exact Logic.I]|]. split; [reflexivity|]. split; [|split; [reflexivity|split; [reflexivity|split; [vm_compute; reflexivity|reflexivity]]]].
  intros n N. apply rule_means_reported; [exact N|]. cbn [t_reg t]. destruct (Z.eqb_spec n 2) as [->|N2]; [reflexivity|]. destruct (Z.eqb_spec n 3) as [->|N3]; [reflexivity|].
  cbn [rule_means]. unfold reg_of. destruct (znth (f_regs fs) n) as [y|] eqn:Q; [|reflexivity]. pose proof (znth_range _ _ _ _ Q) as RG. change (zlen (f_regs fs)) with 4 in RG. assert (n = 0 \/ n = 1) as [->| ->] by lia; injection Q as <-; reflexivity.
Qed.
Print Assumptions C62_two_numbers_refuted.
(* The other way round: the return address has a value, but the number that the backend uses for the register is
   undefined: the pc is undefined. *)
Theorem C62_backend_number_refuted : exists m c e fs t u v, fits m (c_c32 c) e /\ plain_rules c t /\ cfa_reported c fs (t_cfa t) /\
  (forall n, 0 <= n -> register_reported c false fs n (t_reg t n)) /\
  caller_within (h_big m) c e false t 3 v /\ v <> 0 /\ unwind_frame m c false fs 3 false = Ok u /\
  known (h_ebl m) (n_regs u) 3 = Some v /\ n_pc u = PcUndefined.
Proof.
  pose (c := Cfi [0] 1 true false true 0 0 0). pose (fs := Frame 0 16 (CfaOff 7 16) [RUnspec; RUnspec; RUndef; ROff (-8)]).
  pose (t := Rules (RegOff 7 16) (fun n => if n =? 2 then Undefined else if n =? 3 then Offset (-8) else Unspecified)).
  exists two_mach, c, two_env, fs, t, (Unwound (Regs [4; 0; 0] [0; 0; 72340172838076673; 0; 0; 0; 0; 0]) PcUndefined false), 72340172838076673.
  split; [exact two_fits|]. split; [split; [cbn; lia|intros n; cbn [t_reg t]; destruct (n =? 2), (n =? 3); exact Logic.I]|]. split; [reflexivity|].
  split.
  - intros n N. apply rule_means_reported; [exact N|]. cbn [t_reg t]. destruct (Z.eqb_spec n 2) as [->|N2]; [reflexivity|]. destruct (Z.eqb_spec n 3) as [->|N3]; [reflexivity|].
    cbn [rule_means]. unfold reg_of. destruct (znth (f_regs fs) n) as [y|] eqn:Q; [|reflexivity]. pose proof (znth_range _ _ _ _ Q) as RG. change (zlen (f_regs fs)) with 4 in RG. assert (n = 0 \/ n = 1) as [->| ->] by lia; injection Q as <-; reflexivity.
  - split; [|split; [discriminate|split; [vm_compute; reflexivity|split; reflexivity]]].
    unfold caller_within. cbn [t_reg t Z.eqb caller Pos.eqb]. exists 28688. split; [exists 28672; split; reflexivity|]. apply ones_reads; [reflexivity|reflexivity|cbn; lia|reflexivity].
Qed.
Print Assumptions C62_backend_number_refuted.
