(* Properties C63 and C64: walking the frames of a thread, and unwinding without call frame information. *)
From Coq Require Import ZifyBool ZifyNat.
From Verif Require Import Base LebModel LebSpec LebProof DwModel Slice CfiModel CfiSpec CfiProof CfiProps NcfiModel NcfiSpec NcfiProof NcfiProps
  FdeModel FdeSpec FdeProof FdeTable FdeProps FrameModel FrameProps LocModel EvalModel EvalSpec EvalProof Eval2Proof EvalProps UnwindModel UnwindSpec UnwindProof Unwind2Proof Unwind3Proof UnwindProps
  WalkModel WalkSpec WalkProof Walk2Proof.

(* dwfl_thread_getframes for a thread that is not being unwound: the first frame has the registers that were set and
   the pc that was set, or else the value of the backend's return address register; from there on the callback sees
   exactly the chain of frames, whatever it asks about a frame; at the end the thread has no frames and was detached
   once. *)
Theorem C63_frames : forall w l p, backend_ok (d_ebl w) -> settable (d_ebl w) l ->
  match last_pc l None with
  | Some q => p = q
  | None => exists ra v, d_ra w = Some ra /\ 0 <= ra < b_nregs (d_ebl w) /\ b_regno (d_ebl w) ra = Some ra /\ last_reg (d_ebl w) ra l None = Some v /\ p = (v + b_raoff (d_ebl w)) mod two64
  end ->
  exists f, x_initial f = true /\ x_signal f = false /\ x_pc f = PcSet p /\ regs_ok (d_ebl w) (x_regs f) /\ (forall n, known (d_ebl w) (x_regs f) n = last_reg (d_ebl w) n l None) /\
  forall A (cb : A -> act A) a a' code th d,
    (exists fuel, getframes fuel w (Some l) cb [] a = Ok (a', code, th, d)) <->
    walk (d_norm w) (fun f o => frame_step w f = Ok o) cb f a a' code /\ th = [] /\ d = 1.
Proof.
  intros w l p (NR & NN) S P. destruct (new_regs_ok (d_ebl w) ltac:(lia) NN) as [RN KN]. destruct (initial_ok (d_ebl w) l (Fr (new_regs (d_ebl w)) PcError false true) RN S) as (g & E & RG & KG). cbn [x_pc x_signal x_initial x_regs] in *.
  assert (KG' : forall n, known (d_ebl w) g n = last_reg (d_ebl w) n l None) by (intros n; rewrite KG, KN; reflexivity).
  exists (Fr g (PcSet p) false true). cbn [x_pc x_signal x_initial x_regs]. split; [reflexivity|]. split; [reflexivity|]. split; [reflexivity|]. split; [exact RG|]. split; [exact KG'|].
  assert (FP : fetch_pc w (Fr g (match last_pc l None with Some q => PcSet q | None => PcError end) false true) = Ok (Some (Fr g (PcSet p) false true))).
  { destruct (last_pc l None) as [q|]; [rewrite P; reflexivity|]. destruct P as (ra & v & RA & R0 & RR & LV & PV). unfold fetch_pc. cbn [x_pc x_regs x_signal x_initial]. rewrite RA. replace (b_nregs (d_ebl w) <=? ra) with false by lia.
    rewrite <- KG' in LV. unfold known in LV. rewrite RR in LV. replace (ra <? b_nregs (d_ebl w)) with true in LV by lia. cbn [andb] in LV. destruct (znth (g_set g) (ra / 64)) as [m|]; [|discriminate]. destruct (Z.testbit m (ra mod 64)); [|discriminate]. rewrite LV, PV. reflexivity. }
  intros A cb a a' code th d. unfold getframes. replace (b_nregs (d_ebl w) =? 0) with false by lia. rewrite E. cbn [obind]. rewrite FP. cbn [obind]. split.
  - intros [fuel H]. apply (loop_walk A w fuel cb _ _ a a' code th d (or_introl eq_refl) H).
  - intros (W & -> & ->). apply (walk_loop A w cb _ a a' code W). left. reflexivity.
Qed.
Print Assumptions C63_frames.

(* Whenever the call comes back after the initial registers were set, there is no frame left and the thread has been
   detached exactly once, also when there is no pc; then no callback is called. *)
Theorem C63_detached : forall A w l (cb : A -> act A) a n a' code th d, backend_ok (d_ebl w) -> settable (d_ebl w) l ->
  getframes n w (Some l) cb [] a = Ok (a', code, th, d) -> th = [] /\ d = 1 /\ (last_pc l None = None -> d_ra w = None -> a' = a /\ code = -1).
Proof.
  intros A w l cb a n a' code th d (NR & NN) S H. destruct (new_regs_ok (d_ebl w) ltac:(lia) NN) as [RN KN]. destruct (initial_ok (d_ebl w) l (Fr (new_regs (d_ebl w)) PcError false true) RN S) as (g & E & RG & KG). cbn [x_pc x_signal x_initial x_regs] in *.
  unfold getframes in H. replace (b_nregs (d_ebl w) =? 0) with false in H by lia. rewrite E in H. cbn [obind] in H.
  destruct (fetch_pc w _) as [[st|]| | |] eqn:F; cbn [obind] in H; try discriminate.
  - assert (L : forall k th0 a0, frames_loop k w cb th0 a0 = Ok (a', code, th, d) -> th = [] /\ d = 1).
    { clear. induction k as [|k IH]; intros th0 a0 H; [discriminate|]. cbn [frames_loop] in H. destruct (run w (cb a0) th0) as [((a1, c1), t1)| | |]; cbn [obind] in H; try discriminate. destruct (negb (c1 =? 0)); [injection H; auto|].
      destruct (frame_unwind w t1) as [[|f0 [|f1 r]]| | |]; cbn [obind] in H; try discriminate; [injection H; auto|]. destruct (x_pc f1); [injection H; auto|exact (IH _ _ H)|injection H; auto]. }
    destruct (L _ _ _ H) as (L1 & L2). split; [exact L1|]. split; [exact L2|]. intros P R. rewrite P in F. unfold fetch_pc in F. cbn [x_pc] in F. rewrite R in F. discriminate.
  - injection H as <- <- <- <-. auto.
Qed.
Print Assumptions C63_detached.

(* The result does not depend on the fuel of the model. *)
Theorem C63_determined : forall A w l (cb : A -> act A) th a n1 n2 r1 r2, getframes n1 w l cb th a = Ok r1 -> getframes n2 w l cb th a = Ok r2 -> r1 = r2.
Proof.
  intros A w l cb th a n1 n2 r1 r2 H1 H2. unfold getframes in *. destruct th; [|congruence]. destruct (_ =? 0); [congruence|]. destruct l as [l|]; [|congruence]. destruct (set_initial _ _ _) as [[st|]| | |]; cbn [obind] in *; try congruence.
  destruct (fetch_pc w st) as [[st'|]| | |]; cbn [obind] in *; try congruence. apply (loop_more A w n1 cb [st'] a r1) with (n := max n1 n2) in H1; [|lia]. apply (loop_more A w n2 cb [st'] a r2) with (n := max n1 n2) in H2; [|lia]. congruence.
Qed.
Print Assumptions C63_determined.

(* Called again for a thread that is being unwound, for a backend without registers, or when the initial registers
   cannot be had, it returns -1 and calls nothing; the thread is as before. *)
Theorem C63_refused : forall A w l (cb : A -> act A) th a n,
  th <> [] \/ b_nregs (d_ebl w) = 0 \/ l = None -> getframes n w l cb th a = Ok (a, -1, th, 0).
Proof.
  intros A w l cb th a n H. unfold getframes. destruct th as [|f th]; [|reflexivity]. destruct (Z.eqb_spec (b_nregs (d_ebl w)) 0) as [E|E]; [reflexivity|]. destruct H as [H|[H|H]]; [congruence|congruence|]. rewrite H. reflexivity.
Qed.
Print Assumptions C63_refused.

(* the pc by which the call frame information of a frame is looked up *)
Definition lookup_pc (w : world) (f : fr) (p : Z) : Z :=
  if x_initial f || x_signal f then d_norm w p else (d_norm w p - 1) mod two64.
Lemma step_pc : forall w f p, x_pc f = PcSet p -> frame_step w f =
  (r <- match d_module w (lookup_pc w f p) with
         | None => Ok None
         | Some (eh, dw) => r <- unwind_by w f (lookup_pc w f p) eh ;; match r with Some x => Ok (Some x) | None => unwind_by w f (lookup_pc w f p) dw end
         end ;;
    match r with Some x => Ok (Some x) | None => unwind_back w f (lookup_pc w f p) end).
Proof.
  intros w f p P. unfold frame_step, lookup_pc. rewrite P. destruct (x_initial f), (x_signal f); cbn [negb andb orb]; try reflexivity; unfold u64; destruct (d_module w _) as [[eh dw]|]; reflexivity.
Qed.
(* The source q has a row for the address: f' is the frame of the caller by it (C62). *)
Definition machine (w : world) (f : fr) (q : src) : mach := Mach (d_ebl w) (x_regs f) (d_read w) (d_big w) (q_bias q).
Definition covered (w : world) (f : fr) (q : src) (pc : Z) : Prop :=
  exists frames e fd r, scene (q_cfi q) frames (q_table q) (q_cache q) (q_abi q) (q_abidaf q) (machine w f q) e fd r ((pc - q_bias q) mod two64) /\ rules_defined (d_big w) (q_cfi q) e (r_rules r).
Definition not_covered (q : src) (pc : Z) : Prop :=
  exists es frames c rs, holds (q_cfi q) es /\ frames_of (q_cfi q) es frames /\ table_of (q_cfi q) frames (q_table q) /\ lookups (q_cfi q) (q_table q) cache0 c = Ok (rs, q_cache q) /\
    forall f, In f frames -> ~ FdeSpec.covers f ((pc - q_bias q) mod two64).
Definition caller_frame (w : world) (f : fr) (q : src) (pc : Z) (f' : fr) : Prop :=
  x_initial f' = false /\
  forall frames e fd r, scene (q_cfi q) frames (q_table q) (q_cache q) (q_abi q) (q_abidaf q) (machine w f q) e fd r ((pc - q_bias q) mod two64) ->
  let ra := a_ra (r_acie fd) in let has n v := caller_within (d_big w) (q_cfi q) e (q_same q) (r_rules r) n v in let b := d_ebl w in
  (forall n k v, 0 <= n < b_nregs b -> b_regno b n = Some k -> k < b_nregs b -> alone b n -> known b (x_regs f') n = Some v <-> exists v', has n v' /\ v = kept b ra n v') /\
  (exists x s n, cie_means (q_cfi q) (r_acie fd) x s n (x_signal f')) /\
  (0 <= ra < b_nregs b -> b_regno b ra = Some ra -> alone b ra ->
     forall p, x_pc f' = PcSet p <-> exists v, has ra v /\ kept b ra ra v <> 0 /\ p = (kept b ra ra v + b_raoff b) mod two64).
Lemma by_covered : forall w f q pc, covered w f q pc -> exists f', unwind_by w f pc (Some q) = Ok (Some f') /\ caller_frame w f q pc f'.
Proof.
  intros w f q pc (frames & e & fd & r & SC & RD). destruct (C62_defined 0 (q_same q) _ _ _ _ _ _ _ _ _ _ _ SC RD) as [u H]. unfold unwind_by. fold (machine w f q). unfold u64. rewrite H. cbn [obind]. eexists. split; [reflexivity|]. split; [reflexivity|].
  clear SC RD. intros frames' e' fd' r' SC. cbn [x_regs x_pc x_signal]. split; [|split].
  - intros n k v N K KL AL. exact (C62_registers_partial 0 (q_same q) _ _ _ _ _ _ _ _ _ _ _ _ SC H n k v N K KL AL).
  - exact (C62_signal 0 (q_same q) _ _ _ _ _ _ _ _ _ _ _ _ SC H).
  - intros RA K AL. apply (C62_pc_partial 0 (q_same q) _ _ _ _ _ _ _ _ _ _ _ _ SC H (a_ra (r_acie fd'))); [cbn [machine h_ebl]; lia|exact K|cbn [machine h_ebl]; lia|exact AL|left; reflexivity].
Qed.
Lemma by_not_covered : forall w f q pc, not_covered q pc -> unwind_by w f pc (Some q) = Ok None.
Proof.
  intros w f q pc (es & frames & c & rs & HH & FR & TT & Q & NO). unfold unwind_by. unfold u64. rewrite (C62_none 0 (q_same q) _ es frames _ _ _ _ _ c rs _ HH FR TT Q NO). reflexivity.
Qed.
(* One step: with the pc of the frame, less 1 unless it is the first frame or a signal frame, .eh_frame of the module is asked first,
   then .debug_frame, then the backend's unwinder.  Partial: as C62. *)
Theorem C63_step_partial : forall w f p, x_pc f = PcSet p -> let pc := lookup_pc w f p in
  (forall q dw, d_module w pc = Some (Some q, dw) -> covered w f q pc -> exists f', frame_step w f = Ok (Some f') /\ caller_frame w f q pc f') /\
  (forall eh q, d_module w pc = Some (eh, Some q) -> (forall x, eh = Some x -> not_covered x pc) -> covered w f q pc -> exists f', frame_step w f = Ok (Some f') /\ caller_frame w f q pc f') /\
  ((forall eh dw, d_module w pc = Some (eh, dw) -> (forall x, eh = Some x \/ dw = Some x -> not_covered x pc)) ->
    frame_step w f = match d_back w with
                     | None => Ok None
                     | Some u => o <- u pc (x_regs f) ;; match o with
                                                          | Some (g, Some q, s) => Ok (Some (Fr g (PcSet q) s false))
                                                          | Some (_, None, _) => UB
                                                          | None => Ok None
                                                          end
                     end).
Proof.
  intros w f p P pc. rewrite (step_pc w f p P). fold pc. split; [|split].
  - intros q dw M CV. rewrite M. destruct (by_covered w f q pc CV) as (f' & H & CF). rewrite H. cbn [obind]. eauto.
  - intros eh q M NC CV. rewrite M. assert (E : unwind_by w f pc eh = Ok None) by (destruct eh as [x|]; [apply by_not_covered; auto|reflexivity]). rewrite E. cbn [obind]. destruct (by_covered w f q pc CV) as (f' & H & CF). rewrite H. cbn [obind]. eauto.
  - intros NC. destruct (d_module w pc) as [[eh dw]|]; cbn [obind].
    + assert (E : unwind_by w f pc eh = Ok None) by (destruct eh as [x|]; [apply by_not_covered; apply (NC _ _ eq_refl); auto|reflexivity]). assert (E2 : unwind_by w f pc dw = Ok None) by (destruct dw as [x|]; [apply by_not_covered; apply (NC _ _ eq_refl); auto|reflexivity]).
      rewrite E. cbn [obind]. rewrite E2. cbn [obind]. unfold unwind_back. destruct (d_back w) as [u|]; [|reflexivity]. destruct (u pc (x_regs f)) as [[[[g [q|]] s]|]| | |]; reflexivity.
    + unfold unwind_back. destruct (d_back w) as [u|]; [|reflexivity]. destruct (u pc (x_regs f)) as [[[[g [q|]] s]|]| | |]; reflexivity.
Qed.
Print Assumptions C63_step_partial.

(* ---------------------------------------------------------------- C64 *)
(* x86-64: with a frame pointer fp the return address is the word at fp + 8, the caller's frame pointer the word at fp,
   its stack pointer fp + 16, which must be above the frame's. *)
Theorem C64_x86_64 : forall b rd g pc, regs_ok b g -> words b rd -> b_class32 b = false -> has_reg b 6 -> has_reg b 7 -> b_regno b 6 <> b_regno b 7 ->
  exists o, x86_64_unwind b (Some rd) pc g = Ok o /\
  match o with
  | Some (g', p, s) => exists fp ret, known b g 6 = Some fp /\ fp <> 0 /\ rd ((fp + 8) mod two64) = Some ret /\
      value_or_0 (known b g 7) < (fp + 16) mod two64 /\ p = Some ret /\ s = false /\
      exactly b g' [(6, value_or_0 (rd fp)); (7, (fp + 16) mod two64)] /\ regs_ok b g'
  | None => forall fp ret, known b g 6 = Some fp -> fp <> 0 -> rd ((fp + 8) mod two64) = Some ret -> (fp + 16) mod two64 <= value_or_0 (known b g 7)
  end.
Proof. exact x86_64_ok. Qed.
Print Assumptions C64_x86_64.

(* i386: the same with words of 4 bytes, and only with both pointers known, in order, and a return address. *)
Theorem C64_i386 : forall b rd g pc, regs_ok b g -> words b rd -> b_class32 b = true -> has_reg b 4 -> has_reg b 5 -> b_regno b 4 <> b_regno b 5 ->
  exists o, i386_unwind b (Some rd) pc g = Ok o /\
  let good sp fp ret fp' := known b g 4 = Some sp /\ known b g 5 = Some fp /\ sp <> 0 /\ sp <= fp /\ rd ((fp + 4) mod two64) = Some ret /\ ret <> 0 /\ rd fp = Some fp' /\ (fp + 8) mod two64 < fp' in
  match o with
  | Some (g', p, s) => exists sp fp ret fp', good sp fp ret fp' /\ p = Some ret /\ s = false /\
      exactly b g' [(4, (fp + 8) mod two64); (5, fp')] /\ regs_ok b g'
  | None => forall sp fp ret fp', ~ good sp fp ret fp'
  end.
Proof. exact i386_ok. Qed.
Print Assumptions C64_i386.

(* PowerPC 64: the caller's pc is the link register; its stack pointer is the word the stack pointer points to, which
   must be above the frame's; its link register is the word 16 above that. *)
Theorem C64_ppc64 : forall b rd g pc, regs_ok b g -> words b rd -> b_class32 b = false -> has_reg b 1 -> has_reg b 65 -> b_regno b 1 <> b_regno b 65 ->
  exists o, ppc64_unwind b (Some rd) pc g = Ok o /\
  let sp := value_or_0 (known b g 1) in let sp' := value_or_0 (rd sp) in
  match o with
  | Some (g', p, s) => exists lr, known b g 65 = Some lr /\ lr <> 0 /\ sp < sp' /\ p = Some lr /\ s = false /\
      exactly b g' [(1, sp'); (65, value_or_0 (rd ((sp' + 16) mod two64)))] /\ regs_ok b g'
  | None => forall lr, known b g 65 = Some lr -> lr <> 0 -> sp' <= sp
  end.
Proof. exact ppc64_ok. Qed.
Print Assumptions C64_ppc64.

(* AArch64: the caller's pc is the link register; the caller's link register and frame pointer are the words at fp + 8
   and fp, its stack pointer is fp + 16, which must be above the frame's unless fp is 0. *)
Theorem C64_aarch64 : forall b rd g pc, regs_ok b g -> words b rd -> b_class32 b = false -> has_reg b 29 -> has_reg b 30 -> has_reg b 31 ->
  b_regno b 30 <> b_regno b 29 -> b_regno b 30 <> b_regno b 31 -> b_regno b 29 <> b_regno b 31 ->
  exists o, aarch64_unwind b (Some rd) pc g = Ok o /\
  let fp := value_or_0 (known b g 29) in let sp := value_or_0 (known b g 31) in
  match o with
  | Some (g', p, s) => exists lr, known b g 30 = Some lr /\ lr <> 0 /\ (fp = 0 \/ sp < (fp + 16) mod two64) /\ p = Some lr /\ s = false /\
      exactly b g' [(30, value_or_0 (rd ((fp + 8) mod two64))); (29, value_or_0 (rd fp)); (31, (fp + 16) mod two64)] /\ regs_ok b g'
  | None => forall lr, known b g 30 = Some lr -> lr <> 0 -> fp <> 0 /\ (fp + 16) mod two64 <= sp
  end.
Proof. exact aarch64_ok. Qed.
Print Assumptions C64_aarch64.

(* A chain of frames unwound this way has an end.  Partial: not on AArch64, and not for a process of class 32 with the
   x86-64 backend. *)
Theorem C64_finite_partial : forall b rd, words b rd ->
  (b_class32 b = false -> has_reg b 6 -> has_reg b 7 -> b_regno b 6 <> b_regno b 7 -> finite b (x86_64_unwind b (Some rd))) /\
  (b_class32 b = true -> has_reg b 4 -> has_reg b 5 -> b_regno b 4 <> b_regno b 5 -> finite b (i386_unwind b (Some rd))) /\
  (b_class32 b = false -> has_reg b 1 -> has_reg b 65 -> b_regno b 1 <> b_regno b 65 -> finite b (ppc64_unwind b (Some rd))).
Proof.
  intros b rd WD. split; [|split]; intros C H1 H2 NE (s & R0 & ST).
  - refine (grows_finite (x86_64_unwind b (Some rd)) (regs_ok b) (fun g => value_or_0 (known b g 7)) two64 _ s R0 ST). intros pc g g' p x E RO. destruct (x86_64_ok b rd g pc RO WD C H1 H2 NE) as (o & E' & X). rewrite E in E'. injection E' as <-.
    destruct X as (fp & ret & _ & _ & _ & L & _ & _ & (KN & _) & RO'). split; [exact RO'|]. rewrite (KN 7 _ (or_intror (or_introl eq_refl))). cbn [value_or_0] in *. pose proof (Z.mod_pos_bound (fp + 16) two64 ltac:(lia)). lia.
  - assert (STEP : forall pc g g' p x, i386_unwind b (Some rd) pc g = Ok (Some (g', p, x)) -> regs_ok b g -> regs_ok b g' /\ (forall v, known b g' 5 = Some v -> v < two32) /\
      ((forall v, known b g 5 = Some v -> v < two32) -> value_or_0 (known b g 4) < value_or_0 (known b g' 4) <= two64)).
    { intros pc g g' p x E RO. destruct (i386_ok b rd g pc RO WD C H1 H2 NE) as (o & E' & X). rewrite E in E'. injection E' as <-.
      destruct X as (sp & fp & ret & fp' & (K4 & K5 & S0 & SF & _ & _ & F2 & L) & _ & _ & (KN & _) & RO'). split; [exact RO'|]. rewrite (KN 4 _ (or_introl eq_refl)), (KN 5 _ (or_intror (or_introl eq_refl))), K4. cbn [value_or_0].
      pose proof (known_word _ _ _ _ RO K5) as WF. unfold word in WF. pose proof (Z.mod_pos_bound (fp + 8) two64 ltac:(lia)). pose proof (WD _ _ F2) as W2. rewrite C in W2. split; [intros v Q; injection Q as <-; lia|].
      intros LT. specialize (LT fp K5). rewrite Z.mod_small by lia. lia. }
    destruct (ST O) as (pc0 & p0 & x0 & E0). destruct (STEP _ _ _ _ _ E0 R0) as (R1 & L1 & _).
    refine (grows_finite (i386_unwind b (Some rd)) (fun g => regs_ok b g /\ forall v, known b g 5 = Some v -> v < two32) (fun g => value_or_0 (known b g 4)) two64 _ (fun i => s (S i)) (conj R1 L1) (fun i => ST (S i))).
    intros pc g g' p x E (RO & LT). destruct (STEP _ _ _ _ _ E RO) as (A & B & D). auto.
  - refine (grows_finite (ppc64_unwind b (Some rd)) (regs_ok b) (fun g => value_or_0 (known b g 1)) two64 _ s R0 ST). intros pc g g' p x E RO. destruct (ppc64_ok b rd g pc RO WD C H1 H2 NE) as (o & E' & X). rewrite E in E'. injection E' as <-.
    destruct X as (lr & _ & _ & L & _ & _ & (KN & _) & RO'). split; [exact RO'|]. rewrite (KN 1 _ (or_introl eq_refl)). cbn [value_or_0] in *.
    assert (W : 0 <= value_or_0 (rd (value_or_0 (known b g 1))) < two64) by (pose proof (or0_words b rd (value_or_0 (known b g 1)) WD) as W; rewrite C in W; exact W). unfold value_or_0 in *. lia.
Qed.
Print Assumptions C64_finite_partial.

(* ---------------------------------------------------------------- examples *)
(* A process on x86-64: the first pc is in ex_frame, its return address 9000 at 28680; there is no call frame information
   for 9000; the frame pointer 28700 leads to the return address 9100 and the frame pointer 0. *)
Definition ex_rd (a : Z) : option Z := if a =? 28680 then Some 9000 else if a =? 28708 then Some 9100 else if a =? 28700 then Some 0 else None.
Definition ex_src : src := Src ex_cfi None cache0 [] 0 true 0.
Definition ex_world : world := World (ex_ebl false) (Some ex_rd) false (fun p => p) (Some 16)
  (fun pc => if (8224 <=? pc) && (pc <? 8256) then Some (Some ex_src, None) else None) (Some (x86_64_unwind (ex_ebl false) (Some ex_rd))).
Definition ex_init : list init := [SetReg 6 28700; SetReg 7 28672; SetReg 16 8230].
(* a callback that collects the pcs and whether the frames are activations *)
Definition ex_cb (l : list (Z * bool)) : act (list (Z * bool)) := AskPc true (fun pc x => Return (l ++ [(pc, x)]) 0).
Lemma ex_backend : backend_ok (ex_ebl false).
Proof. split; [cbn; lia|]. intros r k. cbn [b_regno ex_ebl]. destruct (_ && _) eqn:E; [|discriminate]. intros Q. injection Q as <-. lia. Qed.
Example C63_detached_nonvacuous : exists w l, backend_ok (d_ebl w) /\ settable (d_ebl w) l /\ last_pc l None = None /\ d_ra w = None /\ getframes 5 w (Some l) (fun a : Z => Return (a + 1) 0) [] 3 = Ok (3, -1, [], 1).
Proof.
  exists (World (ex_ebl false) None false (fun p => p) None (fun _ => None) None), ex_init. split; [exact ex_backend|]. split; [|split; [reflexivity|split; [reflexivity|vm_compute; reflexivity]]].
  repeat constructor; try (unfold is_u64; lia); eexists; (split; [reflexivity|cbn; lia]).
Qed.
Example C63_frames_nonvacuous : backend_ok (d_ebl ex_world) /\ settable (d_ebl ex_world) ex_init /\ last_pc ex_init None = None /\ last_reg (d_ebl ex_world) 16 ex_init None = Some 8230 /\
  getframes 10 ex_world (Some ex_init) ex_cb [] [] = Ok ([(8230, true); (9000, false); (9100, false)], -1, [], 1).
Proof.
  split; [exact ex_backend|]. split; [|split; [reflexivity|split; [reflexivity|vm_compute; reflexivity]]].
  repeat constructor; try (unfold is_u64; lia); eexists; (split; [reflexivity|cbn; lia]).
Qed.
Example C63_determined_nonvacuous : exists r, getframes 10 ex_world (Some ex_init) ex_cb [] [] = Ok r /\ getframes 3 ex_world (Some ex_init) ex_cb [] [] = Ok r.
Proof. exists ([(8230, true); (9000, false); (9100, false)], -1, [], 1). split; vm_compute; reflexivity. Qed.
(* dwfl_thread_getframes called again inside the callback returns -1, and the callback returns that *)
Example C63_refused_nonvacuous : getframes 10 ex_world (Some ex_init) (fun _ : Z => AskFrames (fun r => Return r r)) [] 0 = Ok (-1, -1, [], 1) /\
  getframes 10 ex_world None (fun _ : Z => Return 1 1) [] 0 = Ok (0, -1, [], 0).
Proof. split; vm_compute; reflexivity. Qed.
Example C63_step_partial_nonvacuous : exists f, x_pc f = PcSet 8230 /\ x_initial f = true /\ covered (World (ex_ebl false) (h_read (ex_mach false)) false (fun p => p) (Some 16) (fun _ => Some (Some ex_src, None)) None) f ex_src 8230 /\
  not_covered ex_src 9000.
Proof.
  exists (Fr ex_regs (PcSet 8230) false true). split; [reflexivity|]. split; [reflexivity|]. split.
  - destruct ex_scene as (r & SC & C & G). exists [ex_frame], (ex_env false 64), ex_frame, r. split; [exact SC|]. split; [rewrite C; exact Logic.I|]. intros n. rewrite G. destruct (n =? 16); exact Logic.I.
  - exists ex_es, [ex_frame], [], []. split; [exact ex_holds|]. split; [exact ex_frames|]. split; [left; reflexivity|]. split; [reflexivity|]. intros f [<-|[]]. unfold FdeSpec.covers. cbn [r_start r_len ex_frame q_bias ex_src]. change ((9000 - 0) mod two64) with 9000. lia.
Qed.
(* with any backend that numbers its registers as DWARF does *)
Definition flat (n : Z) (c32 : bool) : ebl := Ebl n (fun r => if (0 <=? r) && (r <? n) then Some r else None) c32 (two64 - 1) 0.
(* the registers of l, then one step: the pc, and the registers n of the caller *)
Definition one_step (b : ebl) (u : Z -> regs -> outcome back) (l : list init) (n : list Z) : option (option Z * list (option Z)) :=
  match set_initial b l (Fr (new_regs b) PcError false true) with
  | Ok (Some f) => match u 0 (x_regs f) with Ok (Some (g, p, _)) => Some (p, map (known b g) n) | _ => None end
  | _ => None
  end.
Example C64_x86_64_nonvacuous : one_step (flat 17 false) (x86_64_unwind (flat 17 false) (Some ex_rd)) ex_init [6; 7; 16] = Some (Some 9100, [Some 0; Some 28716; None]).
Proof. vm_compute. reflexivity. Qed.
Example C64_i386_nonvacuous : one_step (flat 9 true) (i386_unwind (flat 9 true) (Some (fun a => if a =? 2000 then Some 3000 else if a =? 2004 then Some 77 else None)))
  [SetReg 4 1000; SetReg 5 2000] [4; 5; 8] = Some (Some 77, [Some 2008; Some 3000; None]).
Proof. vm_compute. reflexivity. Qed.
Example C64_ppc64_nonvacuous : one_step (flat 145 false) (ppc64_unwind (flat 145 false) (Some (fun a => if a =? 1000 then Some 3000 else if a =? 3016 then Some 88 else None)))
  [SetReg 1 1000; SetReg 65 77] [1; 65] = Some (Some 77, [Some 3000; Some 88]).
Proof. vm_compute. reflexivity. Qed.
Example C64_aarch64_nonvacuous : one_step (flat 97 false) (aarch64_unwind (flat 97 false) (Some (fun a => if a =? 2000 then Some 3000 else if a =? 2008 then Some 88 else None)))
  [SetReg 29 2000; SetReg 31 1000; SetReg 30 77] [29; 30; 31] = Some (Some 77, [Some 3000; Some 88; Some 2016]).
Proof. vm_compute. reflexivity. Qed.
Lemma flat_has : forall n c r, 0 <= r < n -> has_reg (flat n c) r.
Proof. intros n c r R. exists r. cbn [b_regno b_nregs flat]. replace ((0 <=? r) && (r <? n)) with true by lia. split; [reflexivity|lia]. Qed.
Example C64_finite_partial_nonvacuous : finite (flat 17 false) (x86_64_unwind (flat 17 false) (Some ex_rd)) /\
  (forall rd, words (flat 9 true) rd -> finite (flat 9 true) (i386_unwind (flat 9 true) (Some rd))).
Proof.
  split.
  - apply (C64_finite_partial (flat 17 false) ex_rd); [|reflexivity|apply flat_has; lia|apply flat_has; lia|discriminate]. intros a v. unfold ex_rd. cbn [b_class32 flat]. repeat destruct (_ =? _); intros Q; try discriminate Q; injection Q as <-; lia.
  - intros rd W. apply (C64_finite_partial (flat 9 true) rd W); [reflexivity|apply flat_has; lia|apply flat_has; lia|discriminate].
Qed.

(* ---------------------------------------------------------------- what fails *)
Definition ex_words (v : Z) : forall c, 0 <= v < two32 -> words (flat c true) (fun _ => Some v).
Proof. intros c V a x Q. injection Q as <-. cbn [b_class32 flat]. exact V. Defined.
(* AArch64 with the frame pointer 0 and a readable word at address 8: every frame has the same link register, and the
   chain of frames has no end. *)
Definition loop_rd (a : Z) : option Z := if a =? 8 then Some 4096 else None.
Definition loop_regs : regs := Regs [3758096384; 0; 0] (repeat 0 30 ++ [4096; 16] ++ repeat 0 65).
Lemma loop_step : forall pc, aarch64_unwind (flat 97 false) (Some loop_rd) pc loop_regs = Ok (Some (loop_regs, Some 4096, false)).
Proof. intros pc. vm_compute. reflexivity. Qed.
Definition x32_regs : regs := Regs [192; 0; 0] (repeat 0 6 ++ [4294967288; 8] ++ repeat 0 9).
Ltac values := unfold loop_regs, x32_regs; cbn [g_val]; apply Forall_forall; intros x X; repeat (apply in_app_or in X; destruct X as [X|X]);
  [apply repeat_spec in X; subst; unfold is_u64; lia|cbn [In] in X; unfold is_u64; lia|apply repeat_spec in X; subst; unfold is_u64; lia].
Lemma loop_ok : regs_ok (flat 97 false) loop_regs.
Proof.
  split; [cbn; lia|]. split; [reflexivity|]. split; [reflexivity|]. split; [values|]. split; [repeat constructor; lia|].
  intros r k. cbn [b_regno flat]. destruct (_ && _) eqn:E; [|discriminate]. intros Q. injection Q as <-. lia.
Qed.
Theorem C64_aarch64_finite_refuted : exists b rd, words b rd /\ b_class32 b = false /\ (forall r, 0 <= r < b_nregs b -> has_reg b r) /\ ~ finite b (aarch64_unwind b (Some rd)).
Proof.
  exists (flat 97 false), loop_rd. split; [intros a v; unfold loop_rd; destruct (_ =? _); intros Q; [injection Q as <-; cbn; lia|discriminate]|]. split; [reflexivity|]. split; [intros r R; apply flat_has; exact R|].
  intros F. apply F. exists (fun _ => loop_regs). split; [exact loop_ok|]. intros i. exists 0, (Some 4096), false. apply loop_step.
Qed.
Print Assumptions C64_aarch64_finite_refuted.
(* The x86-64 backend in a process of class 32: the new stack pointer is compared before it is cut to 32 bits. *)
Theorem C64_x32_finite_refuted : exists b rd, words b rd /\ b_class32 b = true /\ (forall r, 0 <= r < b_nregs b -> has_reg b r) /\ ~ finite b (x86_64_unwind b (Some rd)).
Proof.
  exists (flat 17 true), (fun _ => Some 4294967288). split; [apply ex_words; lia|]. split; [reflexivity|]. split; [intros r R; apply flat_has; exact R|].
  intros F. apply F. exists (fun _ => x32_regs). split.
  - split; [cbn; lia|]. split; [reflexivity|]. split; [reflexivity|]. split; [values|]. split; [repeat constructor; lia|].
    intros r k. cbn [b_regno flat]. destruct (_ && _) eqn:E; [|discriminate]. intros Q. injection Q as <-. lia.
  - intros i. exists 0, (Some 4294967288), false. vm_compute. reflexivity.
Qed.
Print Assumptions C64_x32_finite_refuted.
(* So dwfl_thread_getframes need not return: nothing bounds the number of frames. *)
Definition loop_world : world := World (flat 97 false) (Some loop_rd) false (fun p => p) (Some 30) (fun _ => None) (Some (aarch64_unwind (flat 97 false) (Some loop_rd))).
Theorem C63_endless_refuted : exists w l, backend_ok (d_ebl w) /\ settable (d_ebl w) l /\ forall n, getframes n w (Some l) (fun _ : Z => Return 0 0) [] 0 = Fuel.
Proof.
  exists loop_world, [SetReg 29 0; SetReg 31 16; SetReg 30 4096]. split; [|split].
  - split; [cbn; lia|]. intros r k. cbn [b_regno d_ebl loop_world flat]. destruct (_ && _) eqn:E; [|discriminate]. intros Q. injection Q as <-. lia.
  - repeat constructor; try (unfold is_u64; lia); eexists; (split; [reflexivity|cbn; lia]).
  - intros n. unfold getframes. change (b_nregs (d_ebl loop_world) =? 0) with false. cbn iota.
    assert (E : set_initial (d_ebl loop_world) [SetReg 29 0; SetReg 31 16; SetReg 30 4096] (Fr (new_regs (d_ebl loop_world)) PcError false true) = Ok (Some (Fr loop_regs PcError false true))) by (vm_compute; reflexivity).
    rewrite E. cbn [obind]. assert (P : fetch_pc loop_world (Fr loop_regs PcError false true) = Ok (Some (Fr loop_regs (PcSet 4096) false true))) by (vm_compute; reflexivity). rewrite P. cbn [obind]. clear E P.
    assert (S : forall i, frame_step loop_world (Fr loop_regs (PcSet 4096) false i) = Ok (Some (Fr loop_regs (PcSet 4096) false false))) by (intros [|]; vm_compute; reflexivity).
    generalize true. induction n as [|n IH]; intros i; [reflexivity|]. cbn [frames_loop run obind]. change (negb (0 =? 0)) with false. cbn iota. cbn [frame_unwind]. rewrite S. cbn [obind x_pc]. apply IH.
Qed.
Print Assumptions C63_endless_refuted.
(* memory_read may be NULL, "in such case dwfl_thread_getframes will return only the initial frame" (libdwfl.h); but
   the backend's unwinder calls it without a test. *)
Theorem C63_no_memory_refuted : exists w l, backend_ok (d_ebl w) /\ settable (d_ebl w) l /\ d_read w = None /\ d_back w = Some (x86_64_unwind (d_ebl w) (d_read w)) /\
  forall n, (0 < n)%nat -> getframes n w (Some l) (fun _ : Z => Return 0 0) [] 0 = UB.
Proof.
  exists (World (ex_ebl false) None false (fun p => p) (Some 16) (fun _ => None) (Some (x86_64_unwind (ex_ebl false) None))), ex_init. split; [exact ex_backend|]. split; [|split; [reflexivity|split; [reflexivity|]]].
  - repeat constructor; try (unfold is_u64; lia); eexists; (split; [reflexivity|cbn; lia]).
  - intros [|n] N; [lia|]. vm_compute. reflexivity.
Qed.
Print Assumptions C63_no_memory_refuted.
(* If set_initial_registers sets neither the pc nor the return address register, the first pc is read from memory that
   was never written. *)
Theorem C63_unset_refuted : exists w l, backend_ok (d_ebl w) /\ settable (d_ebl w) l /\ last_pc l None = None /\
  forall n, getframes n w (Some l) (fun _ : Z => Return 0 0) [] 0 = UB.
Proof.
  exists ex_world, [SetReg 7 28672]. split; [exact ex_backend|]. split; [|split; [reflexivity|]].
  - repeat constructor; try (unfold is_u64; lia); eexists; (split; [reflexivity|cbn; lia]).
  - intros n. vm_compute. reflexivity.
Qed.
Print Assumptions C63_unset_refuted.
