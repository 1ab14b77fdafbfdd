(* One step of the evaluator. *)
From Coq Require Import ZifyBool ZifyNat.
From Verif Require Import Base DwModel Slice LebProof LocModel EvalModel EvalSpec EvalProof Eval2Proof Eval3Proof.

Definition plain_ins (i : instr) : Prop := match i with DBra _ | DSkip _ | DCfa | DStackValue => False | _ => True end.
Lemma within_plain : forall e frame big cfa p k x i s l k' s' l', znth (p_ins p) k = Some (x, i) -> plain_ins i ->
  goes_within e frame big cfa p (k, s, l) (k', s', l') <-> k' = k + 1 /\ l' = l /\ does e i s s' /\ zlen s' <= 256 /\ handled e frame big i s.
Proof.
  intros e frame big cfa p k x i s l k' s' l' N P. unfold goes_within. cbn [fst snd]. split.
  - intros (G & Z2 & H). specialize (H x i N). inversion G; subst; try (rewrite N in *; match goal with H : Some _ = Some _ |- _ => injection H; intros; subst; destruct P end; fail).
    match goal with H : znth _ _ = Some (_, i0) |- _ => rewrite N in H; injection H as _ <- end. auto.
  - intros (-> & -> & D & Z2 & H). split; [econstructor; eauto|]. split; [exact Z2|]. intros o j J. rewrite N in J. injection J as <- <-. exact H.
Qed.

Lemma bind_iff : forall A B (x : outcome A) (f : A -> outcome B) r, (v <- x ;; f v) = Ok r <-> exists v, x = Ok v /\ f v = Ok r.
Proof. intros. destruct x; cbn [obind]; split; try discriminate; try (intros (v & Q & _); discriminate). - intros H. eauto. - intros (v & Q & H). injection Q as <-. exact H. Qed.
Lemma push2_iff : forall v w s r, (a <- push v s ;; push w a) = Ok r <-> r = w :: v :: s /\ zlen r <= 256.
Proof. intros. rewrite bind_iff. split; [intros (a & A & B); apply push_iff in A; apply push_iff in B; destruct A as [-> A], B as [-> B]; auto|]. intros [-> L]. exists (v :: s). rewrite !push_iff. rewrite !zlen_cons in *. repeat split; lia. Qed.
Lemma push3_iff : forall v w x s r, (a <- push v s ;; b <- push w a ;; push x b) = Ok r <-> r = x :: w :: v :: s /\ zlen r <= 256.
Proof. intros. rewrite bind_iff. split; [intros (a & A & B); apply push_iff in A; apply push2_iff in B; destruct A as [-> A], B as [-> B]; auto|]. intros [-> L]. exists (v :: s). rewrite push_iff, push2_iff. rewrite !zlen_cons in *. repeat split; lia. Qed.
Ltac head := repeat match goal with
  | |- (if ?b then _ else _) = _ <-> _ =>
    first [ let v := eval vm_compute in b in first [constr_eq v true; change b with true | constr_eq v false; change b with false]
          | replace b with true by (unfold in_range, among; cbn [existsb]; lia)
          | replace b with false by (unfold in_range, among; cbn [existsb]; lia) ]; cbv iota
  end.
Ltac inv_does := match goal with H : does _ _ _ _ |- _ => inversion H; subst; clear H end.

Section STEP.
Variables (m : mach) (c32 : bool) (e : env) (frame : bool) (cfao : outcome Z) (cfa : Z -> Prop) (ops : list op) (p : prog).
Hypothesis FIT : fits m c32 e.
Hypothesis CF : forall c, cfao = Ok c <-> cfa c.
Hypothesis SF : stands_for ops p.
Let fr : option bool := if frame then Some c32 else None.

Lemma step_iff : forall k o s l k' s' l', znth ops k = Some o -> Forall word s -> zlen s <= 256 ->
  step m fr cfao ops k o s l = Ok (k', s', l') <-> goes_within e frame (h_big m) cfa p (k, s, l) (k', s', l').
Proof using FIT CF SF.
  intros k o s l k' s' l' N WS LS. destruct (Forall2_znth _ _ _ _ _ (stands_means _ _ SF)) as [LL FZ].
  destruct (znth_in _ (p_ins p) k ltac:(rewrite <- LL; exact (znth_range _ _ _ _ N))) as [[x i] NI]. pose proof (FZ _ _ _ N NI) as M. cbn [snd] in M.
  pose proof (W64 _ _ _ FIT) as W. destruct FIT as (_ & _ & _ & _ & _ & BI & _). 
  assert (WP := within_plain e frame (h_big m) cfa p k x i s l k' s' l' NI).
  assert (PN : forall v, match push v s with UB => False | _ => True end) by (intros v; unfold push; destruct (_ <=? _); exact Logic.I).
  inversion M; subst; unfold step; cbn [o_atom o_num o_num2 o_off] in *; head.
  - (* addr *) rewrite WP by exact Logic.I. rewrite next_iff, push_iff, u64_wrap. split.
    + intros (-> & -> & -> & Q). split; [reflexivity|]. split; [reflexivity|]. split; [rewrite <- W, <- BI; constructor|]. split; [exact Q|exact Logic.I].
    + intros (-> & -> & D & Q & _). inv_does. rewrite W, BI in *. auto.
  - (* lit *) rewrite WP by exact Logic.I. rewrite next_iff, push_iff. replace (48 + k0 - 48) with k0 by lia. assert (WK : wrap (v_width e) k0 = k0) by (rewrite W; unfold wrap; change (2 ^ 64) with two64; apply Z.mod_small; lia). split.
    + intros (-> & -> & -> & Q). split; [reflexivity|]. split; [reflexivity|]. split; [rewrite <- WK at 2; constructor|]. split; [exact Q|exact Logic.I].
    + intros (-> & -> & D & Q & _). inv_does. rewrite WK in *. auto.
  - (* const *) assert (XX : 8 <= x0 <= 17) by (cbn [In] in *; lia). head. rewrite WP by exact Logic.I. rewrite next_iff, push_iff. split.
    + intros (-> & -> & -> & Q). split; [reflexivity|]. split; [reflexivity|]. split; [replace (v mod two64) with (wrap (v_width e) v) by (rewrite W; reflexivity); constructor|]. split; [exact Q|exact Logic.I].
    + intros (-> & -> & D & Q & _). inv_does. rewrite W in *. auto.
  - (* reg *) rewrite WP by exact Logic.I. rewrite next_iff, bind_iff. replace (80 + r - 80) with r by lia. split.
    + intros (-> & -> & v & G & Q). apply push_iff in Q. destruct Q as [-> Q]. rewrite (get_reg_iff _ _ _ FIT) in G by lia. split; [reflexivity|]. split; [reflexivity|]. split; [constructor; exact G|]. split; [exact Q|exact Logic.I].
    + intros (-> & -> & D & Q & _). inv_does. split; [reflexivity|]. split; [reflexivity|]. exists v. rewrite (get_reg_iff _ _ _ FIT), push_iff by lia. auto.
  - (* regx *) rewrite WP by exact Logic.I. rewrite next_iff, bind_iff. split.
    + intros (-> & -> & v & G & Q). apply push_iff in Q. destruct Q as [-> Q]. rewrite (get_reg_iff _ _ _ FIT) in G by lia. split; [reflexivity|]. split; [reflexivity|]. split; [constructor; exact G|]. split; [exact Q|exact Logic.I].
    + intros (-> & -> & D & Q & _). inv_does. split; [reflexivity|]. split; [reflexivity|]. exists v. rewrite (get_reg_iff _ _ _ FIT), push_iff by lia. auto.
  - (* breg *) rewrite WP by exact Logic.I. rewrite next_iff, bind_iff. replace (112 + r - 112) with r by lia.
    assert (UW : forall v, u64 (v + n mod two64) = wrap (v_width e) (v + n)) by (intros v; rewrite W; unfold u64, wrap; change (2 ^ 64) with two64; apply Zplus_mod_idemp_r). split.
    + intros (-> & -> & v & G & Q). apply push_iff in Q. destruct Q as [-> Q]. rewrite UW in *. rewrite (get_reg_iff _ _ _ FIT) in G by lia. split; [reflexivity|]. split; [reflexivity|]. split; [constructor; exact G|]. split; [exact Q|exact Logic.I].
    + intros (-> & -> & D & Q & _). inv_does. split; [reflexivity|]. split; [reflexivity|]. exists v. rewrite UW, (get_reg_iff _ _ _ FIT), push_iff by lia. auto.
  - (* bregx *) rewrite WP by exact Logic.I. rewrite next_iff, bind_iff.
    assert (UW : forall v, u64 (v + n mod two64) = wrap (v_width e) (v + n)) by (intros v; rewrite W; unfold u64, wrap; change (2 ^ 64) with two64; apply Zplus_mod_idemp_r). split.
    + intros (-> & -> & v & G & Q). apply push_iff in Q. destruct Q as [-> Q]. rewrite UW in *. rewrite (get_reg_iff _ _ _ FIT) in G by lia. split; [reflexivity|]. split; [reflexivity|]. split; [constructor; exact G|]. split; [exact Q|exact Logic.I].
    + intros (-> & -> & D & Q & _). inv_does. split; [reflexivity|]. split; [reflexivity|]. exists v. rewrite UW, (get_reg_iff _ _ _ FIT), push_iff by lia. auto.
  - (* dup *) rewrite WP by exact Logic.I. rewrite next_iff. destruct s as [|a s]; cbn [pop obind]; [split; [intros (_ & _ & Q); discriminate|intros (_ & _ & D & _); inv_does]|]. rewrite push2_iff. split.
    + intros (-> & -> & -> & Q). split; [reflexivity|]. split; [reflexivity|]. split; [constructor|]. split; [exact Q|exact Logic.I].
    + intros (-> & -> & D & Q & _). inv_does. auto.
  - (* drop *) rewrite WP by exact Logic.I. rewrite next_iff. destruct s as [|a s]; cbn [pop obind]; [split; [intros (_ & _ & Q); discriminate|intros (_ & _ & D & _); inv_does]|]. rewrite zlen_cons in LS. split.
    + intros (-> & -> & Q). injection Q as <-. split; [reflexivity|]. split; [reflexivity|]. split; [constructor|]. split; [lia|exact Logic.I].
    + intros (-> & -> & D & Q & _). inv_does. auto.
  - (* over *) rewrite WP by exact Logic.I. rewrite next_iff. destruct s as [|a [|b s]]; cbn [pop obind]; [split; [intros (_ & _ & Q); discriminate|intros (_ & _ & D & _); inv_does]|split; [intros (_ & _ & Q); discriminate|intros (_ & _ & D & _); inv_does]|]. rewrite push3_iff. split.
    + intros (-> & -> & -> & Q). split; [reflexivity|]. split; [reflexivity|]. split; [constructor|]. split; [exact Q|exact Logic.I].
    + intros (-> & -> & D & Q & _). inv_does. auto.
  - (* pick *) rewrite WP by exact Logic.I. rewrite next_iff. destruct (zlen s <=? n) eqn:E.
    { split; [intros (_ & _ & Q); discriminate|]. intros (_ & _ & D & _). inv_does. match goal with Y : znth s n = Some _ |- _ => apply znth_range in Y end. lia. }
    destruct (znth_in _ s n ltac:(lia)) as [v V]. rewrite V, push_iff. split.
    + intros (-> & -> & -> & Q). split; [reflexivity|]. split; [reflexivity|]. split; [constructor; exact V|]. split; [exact Q|exact Logic.I].
    + intros (-> & -> & D & Q & _). inv_does. rewrite V in *. match goal with H : Some _ = Some _ |- _ => injection H as <- end. auto.
  - (* swap *) rewrite WP by exact Logic.I. rewrite next_iff. destruct s as [|a [|b s]]; cbn [pop obind]; [split; [intros (_ & _ & Q); discriminate|intros (_ & _ & D & _); inv_does]|split; [intros (_ & _ & Q); discriminate|intros (_ & _ & D & _); inv_does]|]. rewrite push2_iff. split.
    + intros (-> & -> & -> & Q). split; [reflexivity|]. split; [reflexivity|]. split; [constructor|]. split; [exact Q|exact Logic.I].
    + intros (-> & -> & D & Q & _). inv_does. auto.
  - (* rot *) rewrite WP by exact Logic.I. rewrite next_iff. destruct s as [|a [|b [|c s]]]; cbn [pop obind]; try (split; [intros (_ & _ & Q); discriminate|intros (_ & _ & D & _); inv_does]). rewrite push3_iff. split.
    + intros (-> & -> & -> & Q). split; [reflexivity|]. split; [reflexivity|]. split; [constructor|]. split; [exact Q|exact Logic.I].
    + intros (-> & -> & D & Q & _). inv_does. auto.
  - (* deref *) rewrite WP by exact Logic.I. rewrite next_iff. destruct s as [|a s].
    { split; [intros (_ & _ & Q); destruct (h_read m); discriminate|intros (_ & _ & D & _); inv_does]. }
    inversion WS; subst. assert (X : forall r, match h_read m with None => Err DWFL_E_INVALID_ARGUMENT | Some _ => ' (a0, s0) <- pop (a :: s) ;; v <- read_word m a0 ;; v0 <- (if 6 =? 148 then match fr with Some c => narrow m c n v | None => UB end else Ok v) ;; push v0 s0 end = Ok r
      <-> exists v, read_word m a = Ok v /\ push v s = Ok r).
    { intros r. unfold read_word. destruct (h_read m) as [rd|]; [|split; [discriminate|intros (v & Q & _); discriminate]]. cbn [pop obind]. change (6 =? 148) with false. cbv iota. cbn [obind]. apply bind_iff. }
    rewrite X. split.
    + intros (-> & -> & v & G & Q). apply push_iff in Q. destruct Q as [-> Q]. rewrite (read_word_iff _ _ _ FIT) in G by assumption. split; [reflexivity|]. split; [reflexivity|]. split; [constructor; exact G|]. split; [exact Q|exact Logic.I].
    + intros (-> & -> & D & Q & _). inv_does. split; [reflexivity|]. split; [reflexivity|]. exists v. rewrite (read_word_iff _ _ _ FIT), push_iff by assumption. auto.
  - (* deref_size *) rewrite WP by exact Logic.I. rewrite next_iff. destruct s as [|a s].
    { split; [intros (_ & _ & Q); destruct (h_read m); discriminate|intros (_ & _ & D & _); inv_does]. }
    inversion WS; subst. assert (X : forall r, match h_read m with None => Err DWFL_E_INVALID_ARGUMENT | Some _ => ' (a0, s0) <- pop (a :: s) ;; v <- read_word m a0 ;; v0 <- (if 148 =? 148 then match fr with Some c => narrow m c n v | None => UB end else Ok v) ;; push v0 s0 end = Ok r
      <-> exists w, read_word m a = Ok w /\ exists v, match fr with Some c => narrow m c n w | None => UB end = Ok v /\ push v s = Ok r).
    { intros r. unfold read_word. destruct (h_read m) as [rd|]; [|split; [discriminate|intros (v & Q & _); discriminate]]. cbn [pop obind]. change (148 =? 148) with true. cbv iota. rewrite bind_iff.
      split; intros (w & A & B); exists w; (split; [exact A|]); apply bind_iff in B || apply bind_iff; exact B. }
    rewrite X. split.
    + intros (-> & -> & w & G & v & V & Q). apply push_iff in Q. destruct Q as [-> Q]. rewrite (read_word_iff _ _ _ FIT) in G by assumption.
      apply (narrow_iff m c32 e frame FIT n a w v ltac:(assumption) G) in V. destruct V as (V1 & V2 & V3 & V4). split; [reflexivity|]. split; [reflexivity|]. split; [constructor; [lia|exact V4]|]. split; [exact Q|]. cbn [handled]. split; [exact V1|]. split; [exact V3|]. exists w. exact G.
    + intros (-> & -> & D & Q & HV). inv_does. destruct HV as (V1 & V3 & w & G). split; [reflexivity|]. split; [reflexivity|]. exists w. rewrite (read_word_iff _ _ _ FIT) by assumption. split; [exact G|]. exists v. rewrite push_iff. split; [|auto].
      apply (narrow_iff m c32 e frame FIT n a w v ltac:(lia) G). split; [exact V1|]. split; [lia|]. split; [exact V3|assumption].
  - (* plus_uconst *) rewrite WP by exact Logic.I. rewrite next_iff. destruct s as [|a s]; cbn [pop obind]; [split; [intros (_ & _ & Q); discriminate|intros (_ & _ & D & _); inv_does]|].
    unfold unop. cbn [o_atom o_num Z.eqb Pos.eqb obind]. rewrite push_iff, u64_wrap, <- W. split.
    + intros (-> & -> & -> & Q). split; [reflexivity|]. split; [reflexivity|]. split; [constructor|]. split; [exact Q|exact Logic.I].
    + intros (-> & -> & D & Q & _). inv_does. auto.
  - (* abs *) rewrite WP by exact Logic.I. rewrite next_iff. destruct s as [|a s]; cbn [pop obind]; [split; [intros (_ & _ & Q); discriminate|intros (_ & _ & D & _); inv_does]|]. inversion WS; subst. rewrite bind_iff. split.
    + intros (-> & -> & v & G & Q). apply push_iff in Q. destruct Q as [-> Q]. apply (unop_iff m e frame _ UAbs a v s) in G; [|assumption|exact M]. destruct G as [-> G]. rewrite <- W in *. split; [reflexivity|]. split; [reflexivity|]. split; [constructor|]. split; [exact Q|exact G].
    + intros (-> & -> & D & Q & G). inv_does. split; [reflexivity|]. split; [reflexivity|]. eexists. split; [apply (unop_iff m e frame _ UAbs a _ s); [assumption|exact M|split; [reflexivity|exact G]]|]. rewrite W in *. apply push_iff. auto.
  - (* neg *) rewrite WP by exact Logic.I. rewrite next_iff. destruct s as [|a s]; cbn [pop obind]; [split; [intros (_ & _ & Q); discriminate|intros (_ & _ & D & _); inv_does]|]. inversion WS; subst. rewrite bind_iff. split.
    + intros (-> & -> & v & G & Q). apply push_iff in Q. destruct Q as [-> Q]. apply (unop_iff m e frame _ UNeg a v s) in G; [|assumption|exact M]. destruct G as [-> G]. rewrite <- W in *. split; [reflexivity|]. split; [reflexivity|]. split; [constructor|]. split; [exact Q|exact G].
    + intros (-> & -> & D & Q & G). inv_does. split; [reflexivity|]. split; [reflexivity|]. eexists. split; [apply (unop_iff m e frame _ UNeg a _ s); [assumption|exact M|split; [reflexivity|exact G]]|]. rewrite W in *. apply push_iff. auto.
  - (* not *) rewrite WP by exact Logic.I. rewrite next_iff. destruct s as [|a s]; cbn [pop obind]; [split; [intros (_ & _ & Q); discriminate|intros (_ & _ & D & _); inv_does]|]. inversion WS; subst. rewrite bind_iff. split.
    + intros (-> & -> & v & G & Q). apply push_iff in Q. destruct Q as [-> Q]. apply (unop_iff m e frame _ UNot a v s) in G; [|assumption|exact M]. destruct G as [-> G]. rewrite <- W in *. split; [reflexivity|]. split; [reflexivity|]. split; [constructor|]. split; [exact Q|exact G].
    + intros (-> & -> & D & Q & G). inv_does. split; [reflexivity|]. split; [reflexivity|]. eexists. split; [apply (unop_iff m e frame _ UNot a _ s); [assumption|exact M|split; [reflexivity|exact G]]|]. rewrite W in *. apply push_iff. auto.
  - (* binary *) match goal with H : In (x0, _) _ |- _ => pose proof H as IX; assert (XX : 26 <= x0 <= 46 /\ x0 <> 40 /\ x0 <> 31 /\ x0 <> 32 /\ x0 <> 35) by (clear - H; cbn [In] in H; repeat (destruct H as [H|H]; [injection H; intros; lia|]); destruct H) end. head.
    rewrite WP by exact Logic.I. rewrite next_iff. destruct s as [|a [|c s]]; cbn [pop obind]; try (split; [intros (_ & _ & Q); discriminate|intros (_ & _ & D & _); inv_does]).
    inversion WS as [|? ? WA WS1]; subst. inversion WS1 as [|? ? WC WS2]; subst. rewrite bind_iff. split.
    + intros (-> & -> & v & G & Q). apply push_iff in Q. destruct Q as [-> Q]. apply (binop_iff m e frame x0 b c a v s IX WC WA) in G. destruct G as [G1 G2]. rewrite <- W in G1. split; [reflexivity|]. split; [reflexivity|]. split; [constructor; exact G1|]. split; [exact Q|exact G2].
    + intros (-> & -> & D & Q & G). inv_does. rewrite W in *. split; [reflexivity|]. split; [reflexivity|]. exists z. split; [apply (binop_iff m e frame x0 b c a z s IX WC WA); auto|]. apply push_iff. auto.
  - (* bra *) destruct (branch_iff ops p k _ x d SF N ltac:(exists (DBra d); auto)) as [-> BR]. cbn [o_off] in BR, NI. unfold goes_within. cbn [fst snd]. destruct s as [|v s]; cbn [pop obind].
    { split; [discriminate|]. intros (G & _). inversion G; subst; try congruence. rewrite NI in *. match goal with H : Some _ = Some _ |- _ => injection H; intros; subst; inv_does end. }
    rewrite zlen_cons in LS. assert (HD : forall o i, znth (p_ins p) k = Some (o, i) -> handled e frame (h_big m) i (v :: s)) by (intros o' i' Y; rewrite NI in Y; injection Y as <- <-; exact Logic.I).
    destruct (v =? 0) eqn:V0.
    + assert (v = 0) by lia. subst v. split.
      * intros Q. injection Q as <- <- <-. split; [eapply goes_past; eassumption|]. split; [lia|exact HD].
      * intros (G & _). inversion G; subst; try lia; try congruence; rewrite NI in *; match goal with H : Some _ = Some _ |- _ => injection H; intros; subst; inv_does end.
    + rewrite bind_iff. split.
      * intros (i' & Bi & Q). injection Q as <- <- <-. apply BR in Bi. split; [eapply goes_bra; [eassumption|lia|exact Bi]|]. split; [lia|exact HD].
      * intros (G & _). inversion G; subst; try lia; try congruence; rewrite NI in *; match goal with H : Some _ = Some _ |- _ => injection H; intros; subst end; try inv_does.
        exists k'. split; [apply BR; assumption|reflexivity].
  - (* skip *) destruct (branch_iff ops p k _ x d SF N ltac:(exists (DSkip d); auto)) as [-> BR]. cbn [o_off] in BR, NI. unfold goes_within. cbn [fst snd].
    assert (HD : forall o i, znth (p_ins p) k = Some (o, i) -> handled e frame (h_big m) i s) by (intros o' i' Y; rewrite NI in Y; injection Y as <- <-; exact Logic.I).
    rewrite bind_iff. split.
    + intros (i' & Bi & Q). injection Q as <- <- <-. apply BR in Bi. split; [eapply goes_skip; [eassumption|exact Bi]|]. split; [lia|exact HD].
    + intros (G & _). inversion G; subst; try congruence; rewrite NI in *; match goal with H : Some _ = Some _ |- _ => injection H; intros; subst end; try inv_does.
      exists k'. split; [apply BR; assumption|reflexivity].
  - (* nop *) rewrite WP by exact Logic.I. rewrite next_iff. split.
    + intros (-> & -> & Q). injection Q as <-. split; [reflexivity|]. split; [reflexivity|]. split; [constructor|]. split; [exact LS|exact Logic.I].
    + intros (-> & -> & D & Q & _). inv_does. auto.
  - (* cfa *) unfold goes_within. cbn [fst snd]. assert (HD : forall o i, znth (p_ins p) k = Some (o, i) -> handled e frame (h_big m) i s) by (intros o' i' Y; rewrite NI in Y; injection Y as <- <-; exact Logic.I). split.
    + destruct (c <- cfao ;; push c s) as [s1| | |] eqn:P; try discriminate. apply bind_iff in P. destruct P as (c & C & P). apply push_iff in P. destruct P as [-> P]. intros Q. injection Q as <- <- <-.
      split; [eapply goes_cfa; [eassumption|apply CF; exact C]|]. split; [exact P|exact HD].
    + intros (G & LZ & _). inversion G; subst; try congruence; rewrite NI in *; match goal with H : Some _ = Some _ |- _ => injection H; intros; subst end; try inv_does.
      match goal with H : cfa _ |- _ => apply CF in H; rewrite H end. cbn [obind]. assert (PP : push c s = Ok (c :: s)) by (apply push_iff; auto). rewrite PP. reflexivity.
  - (* stack_value *) unfold goes_within. cbn [fst snd]. assert (HD : forall o i, znth (p_ins p) k = Some (o, i) -> handled e frame (h_big m) i s) by (intros o' i' Y; rewrite NI in Y; injection Y as <- <-; exact Logic.I). split.
    + intros Q. injection Q as <- <- <-. split; [eapply goes_value; eassumption|]. split; [exact LS|exact HD].
    + intros (G & LZ & _). inversion G; subst; try congruence; rewrite NI in *; match goal with H : Some _ = Some _ |- _ => injection H; intros; subst end; try inv_does.
  - (* anything else *) rewrite WP by exact Logic.I. destruct (x0 =? 241) eqn:E; head; (split; [discriminate|intros (_ & _ & D & _); inv_does]).
Qed.
End STEP.
