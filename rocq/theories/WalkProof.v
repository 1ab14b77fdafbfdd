(* The walk over the frames. *)
From Coq Require Import ZifyBool ZifyNat.
From Verif Require Import Base EvalModel EvalSpec EvalProof UnwindModel Unwind3Proof WalkModel WalkSpec.

Section WALK.
Variables (A : Type) (w : world).
Definition next (f : fr) (o : option fr) : Prop := frame_step w f = Ok o.
(* the thread while f is the current frame *)
Definition at_frame (f : fr) (th : thread) : Prop := th = [f] \/ exists g, next f (Some g) /\ th = [f; g].
Lemma unwind_iff : forall f th th', at_frame f th -> frame_unwind w th = Ok th' <-> exists o, next f o /\ th' = f :: match o with Some g => [g] | None => [] end.
Proof.
  intros f th th' [->|(g & N & ->)]; cbn [frame_unwind].
  - unfold next. destruct (frame_step w f) as [o| | |]; cbn [obind].
    + split.
      * intros Q. injection Q as <-. exists o. split; [reflexivity|]. destruct o; reflexivity.
      * intros (o' & Q & ->). injection Q as <-. destruct o; reflexivity.
    + split; [discriminate|]. intros (o & Q & _). discriminate.
    + split; [discriminate|]. intros (o & Q & _). discriminate.
    + split; [discriminate|]. intros (o & Q & _). discriminate.
  - split.
    + intros Q. injection Q as <-. exists (Some g). auto.
    + intros (o & N' & ->). unfold next in N, N'. rewrite N in N'. injection N' as <-. reflexivity.
Qed.
Lemma unwind_at : forall f th th', at_frame f th -> frame_unwind w th = Ok th' -> at_frame f th'.
Proof. intros f th th' AT H. apply (unwind_iff f th th' AT) in H. destruct H as ([g|] & N & ->); [right; eauto|left; reflexivity]. Qed.
Lemma run_gives : forall (t : act A) f th a code th', at_frame f th -> run w t th = Ok (a, code, th') -> gives (d_norm w) next f t a code /\ at_frame f th'.
Proof.
  induction t as [a0 c0|b k IH|k IH]; intros f th a code th' AT H; cbn [run] in H.
  - injection H as <- <- <-. split; [constructor|exact AT].
  - destruct (frame_pc w th b) as [[[pc x] th1]| | |] eqn:F; cbn [obind] in H; try discriminate H. unfold frame_pc in F.
    assert (HD : exists tl, th = f :: tl) by (destruct AT as [->|(g & _ & ->)]; eauto). destruct HD as [tl TH]. rewrite TH in F. rewrite <- TH in F.
    destruct (x_pc f) as [|p|] eqn:P; try discriminate F. destruct b; cbn [negb] in F.
    + destruct (x_initial f || x_signal f) eqn:IS.
      * injection F as <- <- <-. destruct (IH _ _ f th a code th' AT H) as [G AT']. split; [|exact AT']. apply (gives_activation _ _ f p true k); [exact P| |exact G]. unfold activation. rewrite IS. reflexivity.
      * destruct (frame_unwind w th) as [th2| | |] eqn:U; cbn [obind] in F; try discriminate F. injection F as <- <- <-. pose proof (unwind_at f th th2 AT U) as AT2. destruct (IH _ _ f th2 a code th' AT2 H) as [G AT']. split; [|exact AT'].
        apply (unwind_iff f th th2 AT) in U. destruct U as (o & N & ->). eapply (gives_activation _ _ f p _ k); [exact P| |exact G]. unfold activation. rewrite IS. exists o. split; [exact N|]. destruct o; reflexivity.
    + injection F as <- <- <-. destruct (IH _ _ f th a code th' AT H) as [G AT']. split; [|exact AT']. apply (gives_pc _ _ f p k); [exact P|exact G].
  - destruct th as [|y th]; [discriminate H|]. destruct (IH _ f _ a code th' AT H) as [G AT']. split; [constructor; exact G|exact AT'].
Qed.
Lemma gives_run : forall (t : act A) f a code, gives (d_norm w) next f t a code -> forall th, at_frame f th -> exists th', run w t th = Ok (a, code, th') /\ at_frame f th'.
Proof.
  intros t f a code G. induction G as [a code|p k a code P G IH|p x k a code P X G IH|k a code G IH]; intros th AT; cbn [run].
  - eauto.
  - unfold frame_pc. assert (HD : exists tl, th = f :: tl) by (destruct AT as [->|(g & _ & ->)]; eauto). destruct HD as [tl ->]. rewrite P. cbn [negb obind]. exact (IH _ AT).
  - unfold frame_pc. assert (HD : exists tl, th = f :: tl) by (destruct AT as [->|(g & _ & ->)]; eauto). destruct HD as [tl ->]. rewrite P. cbn [negb]. unfold activation in X.
    destruct (x_initial f || x_signal f).
    + subst x. cbn [obind]. exact (IH _ AT).
    + destruct X as (o & N & ->). assert (U : frame_unwind w (f :: tl) = Ok (f :: match o with Some g => [g] | None => [] end)) by (apply (unwind_iff f (f :: tl) _ AT); eauto). rewrite U. cbn [obind].
      destruct (IH _ (unwind_at f (f :: tl) _ AT U)) as (th' & R & AT'). exists th'. split; [|exact AT']. rewrite <- R. destruct o; reflexivity.
  - destruct th as [|y th]; [destruct AT as [Q|(g & _ & Q)]; discriminate|]. exact (IH _ AT).
Qed.
Lemma loop_walk : forall fuel (cb : A -> act A) f th a a' code th' d, at_frame f th -> frames_loop fuel w cb th a = Ok (a', code, th', d) -> walk (d_norm w) next cb f a a' code /\ th' = [] /\ d = 1.
Proof.
  induction fuel as [|n IH]; intros cb f th a a' code th' d AT H; cbn [frames_loop] in H; [discriminate|].
  destruct (run w (cb a) th) as [[[a1 c1] th1]| | |] eqn:R; cbn [obind] in H; try discriminate H. destruct (run_gives _ f th a1 c1 th1 AT R) as [G AT1].
  destruct (negb (c1 =? 0)) eqn:C. { injection H as <- <- <- <-. split; [|auto]. apply walk_stop; [exact G|lia]. }
  assert (c1 = 0) as -> by lia. destruct (frame_unwind w th1) as [th2| | |] eqn:U; cbn [obind] in H; try discriminate H. pose proof (unwind_at _ _ _ AT1 U) as AT2. apply (unwind_iff f th1 th2 AT1) in U. destruct U as (o & N & ->).
  destruct o as [g|].
  - destruct (x_pc g) as [|p|] eqn:P.
    + injection H as <- <- <- <-. split; [|auto]. apply (walk_fail _ _ _ f (Some g)); assumption.
    + destruct (IH cb g [g] a1 a' code th' d (or_introl eq_refl) H) as (W & T). split; [|exact T]. eapply walk_on; eassumption.
    + injection H as <- <- <- <-. split; [|auto]. apply (walk_end _ _ _ f g); assumption.
  - injection H as <- <- <- <-. split; [|auto]. apply (walk_fail _ _ _ f None); [assumption|assumption|exact Logic.I].
Qed.
Lemma walk_loop : forall (cb : A -> act A) f a a' code, walk (d_norm w) next cb f a a' code -> forall th, at_frame f th -> exists fuel, frames_loop fuel w cb th a = Ok (a', code, [], 1).
Proof.
  intros cb f a a' code W. induction W as [f a a' code G C|f g p a a' a2 code G N P W IH|f g a a' G N P|f o a a' G N P]; intros th AT; destruct (gives_run _ _ _ _ G th AT) as (th1 & R & AT1).
  - exists 1%nat. cbn [frames_loop]. rewrite R. cbn [obind]. replace (negb (code =? 0)) with true by lia. reflexivity.
  - destruct (IH [g] (or_introl eq_refl)) as [fuel L]. exists (S fuel). cbn [frames_loop]. rewrite R. cbn [obind]. change (negb (0 =? 0)) with false. cbn iota.
    rewrite (proj2 (unwind_iff f th1 [f; g] AT1) (ex_intro _ (Some g) (conj N eq_refl))). cbn [obind]. rewrite P. exact L.
  - exists 1%nat. cbn [frames_loop]. rewrite R. cbn [obind]. change (negb (0 =? 0)) with false. cbn iota.
    rewrite (proj2 (unwind_iff f th1 [f; g] AT1) (ex_intro _ (Some g) (conj N eq_refl))). cbn [obind]. rewrite P. reflexivity.
  - exists 1%nat. cbn [frames_loop]. rewrite R. cbn [obind]. change (negb (0 =? 0)) with false. cbn iota.
    rewrite (proj2 (unwind_iff f th1 (f :: match o with Some g => [g] | None => [] end) AT1) (ex_intro _ o (conj N eq_refl))). cbn [obind]. destruct o as [g|]; [rewrite P|]; reflexivity.
Qed.
(* more fuel changes nothing *)
Lemma loop_more : forall fuel (cb : A -> act A) th a r, frames_loop fuel w cb th a = Ok r -> forall n, (fuel <= n)%nat -> frames_loop n w cb th a = Ok r.
Proof.
  induction fuel as [|k IH]; intros cb th a r H n L; [discriminate|]. destruct n as [|n]; [lia|]. cbn [frames_loop] in *.
  destruct (run w (cb a) th) as [[[a1 c1] th1]| | |]; cbn [obind] in *; try discriminate. destruct (negb (c1 =? 0)); [exact H|].
  destruct (frame_unwind w th1) as [th2| | |]; cbn [obind] in *; try discriminate. destruct th2 as [|y [|g th2]]; [discriminate|exact H|]. destruct (x_pc g); [exact H| |exact H]. apply (IH cb _ _ _ H). lia.
Qed.
End WALK.

(* ---------------------------------------------------------------- the first frame *)
Lemma initial_ok : forall b l st, regs_ok b (x_regs st) -> settable b l ->
  exists g, set_initial b l st = Ok (Some (Fr g (match last_pc l None with Some p => PcSet p | None => x_pc st end) (x_signal st) (x_initial st))) /\ regs_ok b g /\
    forall n, known b g n = last_reg b n l (known b (x_regs st) n).
Proof.
  intros b l. induction l as [|[r v|p] l IH]; intros st RO S; cbn [set_initial last_pc last_reg].
  - exists (x_regs st). destruct st; auto.
  - apply Forall_cons_iff in S. destruct S as [(R & V & k & K & KL) S']. replace (u32 r) with r by (unfold u32; rewrite Z.mod_small; lia). pose proof (reg_set_ok b (x_regs st) r v RO V) as X. rewrite K in X. replace (b_nregs b <=? k) with false in X by lia.
    destruct X as (g' & E & RO' & KN). rewrite E. cbn [obind]. destruct (IH (Fr g' (x_pc st) (x_signal st) (x_initial st)) RO' S') as (g & E2 & RO2 & KN2). exists g. cbn [x_pc x_signal x_initial x_regs] in *. split; [exact E2|]. split; [exact RO2|].
    intros n. rewrite KN2, KN, K. f_equal. unfold cut, known. destruct (b_regno b n) as [k'|]; reflexivity.
  - apply Forall_cons_iff in S. destruct S as [_ S']. destruct (IH (Fr (x_regs st) (PcSet p) (x_signal st) (x_initial st)) RO S') as (g & E & RO2 & KN). exists g. cbn [x_pc x_signal x_initial x_regs] in *. split; [|split; assumption]. rewrite E.
    assert (L : forall l q, last_pc l (Some q) = match last_pc l None with Some x => Some x | None => Some q end).
    { clear. induction l as [|[r v|p] l IH]; intros q; cbn [last_pc]; [reflexivity|apply IH|]. rewrite (IH p). destruct (last_pc l None); reflexivity. }
    rewrite (L l p). destruct (last_pc l None); reflexivity.
Qed.
