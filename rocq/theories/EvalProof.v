(* The evaluator follows the stack machine of DWARF. *)
From Coq Require Import ZifyBool ZifyNat.
From Verif Require Import Base DwModel Slice LebProof LocModel EvalModel EvalSpec.

Definition word (v : Z) : Prop := 0 <= v < two64.

(* ------------------------------------------------------------------ the search for a branch target *)
Lemma bsearch_sound : forall fuel key ops l u i, bsearch fuel key ops l u = Some i -> l <= i < u /\ exists o, znth ops i = Some o /\ o_off o = key.
Proof.
  induction fuel as [|k IH]; intros key ops l u i H; [discriminate|]. cbn [bsearch] in H. destruct (u <=? l) eqn:E; [discriminate|].
  assert (l <= (l + u) / 2 < u) by (split; [apply Z.div_le_lower_bound; lia|apply Z.div_lt_upper_bound; lia]).
  destruct (znth ops ((l + u) / 2)) as [o|] eqn:N; [|discriminate].
  destruct (key <? o_off o) eqn:A; [apply IH in H; destruct H as [H1 H2]; split; [lia|exact H2]|].
  destruct (o_off o <? key) eqn:B; [apply IH in H; destruct H as [H1 H2]; split; [lia|exact H2]|].
  injection H as <-. split; [lia|]. exists o. split; [exact N|lia].
Qed.
(* strictly increasing in [l, u) *)
Definition inc (ops : list op) (l u : Z) : Prop := forall i j a b, l <= i -> i < j -> j < u -> znth ops i = Some a -> znth ops j = Some b -> o_off a < o_off b.
Lemma bsearch_finds : forall fuel key ops l u j o, 0 <= l -> u <= zlen ops -> u - l < Z.of_nat fuel -> inc ops l u ->
  l <= j < u -> znth ops j = Some o -> o_off o = key -> bsearch fuel key ops l u = Some j.
Proof.
  induction fuel as [|k IH]; intros key ops l u j o L U F IN J N K; [lia|]. cbn [bsearch]. replace (u <=? l) with false by lia.
  assert (M : l <= (l + u) / 2 < u) by (split; [apply Z.div_le_lower_bound; lia|apply Z.div_lt_upper_bound; lia]).
  set (i := (l + u) / 2) in *. destruct (znth_in _ ops i ltac:(lia)) as [a A]. rewrite A.
  destruct (Z.lt_trichotomy j i) as [T|[T|T]].
  - pose proof (IN j i o a ltac:(lia) T ltac:(lia) N A). replace (key <? o_off a) with true by lia.
    apply (IH key ops l i j o); try lia; try assumption. intros x y p q X Y Q. apply IN; lia.
  - subst j. rewrite N in A. injection A as <-. replace (key <? o_off o) with false by lia. replace (o_off o <? key) with false by lia. reflexivity.
  - pose proof (IN i j a o ltac:(lia) T ltac:(lia) A N). replace (key <? o_off a) with false by lia. replace (o_off a <? key) with true by lia.
    apply (IH key ops (i + 1) u j o); try lia; try assumption. intros x y p q X Y Q. apply IN; lia.
Qed.
(* the first entry may be anything: it is looked at last *)
Lemma bsearch_finds1 : forall fuel key ops u j o, 1 <= u <= zlen ops -> u < Z.of_nat fuel -> inc ops 1 u ->
  1 <= j < u -> znth ops j = Some o -> o_off o = key -> bsearch fuel key ops 0 u = Some j.
Proof.
  induction fuel as [|k IH]; intros key ops u j o U F IN J N K; [lia|]. cbn [bsearch]. replace (u <=? 0) with false by lia.
  assert (M : 1 <= (0 + u) / 2 < u) by (split; [apply Z.div_le_lower_bound; lia|apply Z.div_lt_upper_bound; lia]).
  set (i := (0 + u) / 2) in *. destruct (znth_in _ ops i ltac:(lia)) as [a A]. rewrite A.
  destruct (Z.lt_trichotomy j i) as [T|[T|T]].
  - pose proof (IN j i o a ltac:(lia) T ltac:(lia) N A). replace (key <? o_off a) with true by lia.
    apply (IH key ops i j o); try lia; try assumption. intros x y p q X Y Q. apply IN; lia.
  - subst j. rewrite N in A. injection A as <-. replace (key <? o_off o) with false by lia. replace (o_off o <? key) with false by lia. reflexivity.
  - pose proof (IN i j a o ltac:(lia) T ltac:(lia) A N). replace (key <? o_off a) with false by lia. replace (o_off a <? key) with true by lia.
    apply (bsearch_finds k key ops (i + 1) u j o); try lia; try assumption. intros x y p q X Y Q. apply IN; lia.
Qed.
(* a key above all others but the first *)
Lemma bsearch_top : forall fuel key ops u i, 2 <= u <= zlen ops -> (forall j o, 1 <= j -> znth ops j = Some o -> o_off o < key) ->
  bsearch fuel key ops 0 u = Some i -> False.
Proof.
  intros fuel key ops u i U T H. destruct fuel as [|k]; [discriminate|]. cbn [bsearch] in H. replace (u <=? 0) with false in H by lia.
  assert (M : 1 <= (0 + u) / 2 < u) by (split; [apply Z.div_le_lower_bound; lia|apply Z.div_lt_upper_bound; lia]).
  set (m := (0 + u) / 2) in *. destruct (znth_in _ ops m ltac:(lia)) as [a A]. rewrite A in H. pose proof (T m a ltac:(lia) A).
  replace (key <? o_off a) with false in H by lia. replace (o_off a <? key) with true in H by lia.
  apply bsearch_sound in H. destruct H as (H1 & o & O & K). pose proof (T i o ltac:(lia) O). lia.
Qed.

Lemma znth_snoc : forall A (l r : list A) x, znth (l ++ x :: r) (zlen l) = Some x.
Proof. intros. rewrite znth_app_r by lia. rewrite Z.sub_diag. apply znth_0. Qed.
Lemma sorted_inc : forall ops, StronglySorted Z.lt (map o_off ops) -> forall i j a b, i < j -> znth ops i = Some a -> znth ops j = Some b -> o_off a < o_off b.
Proof.
  intros ops H. remember (map o_off ops) as l eqn:L. revert ops L. induction H as [|x l H IH F]; intros ops L i j a b IJ A B.
  - destruct ops; [|discriminate]. apply znth_range in A. cbn in A. lia.
  - destruct ops as [|o ops]; [discriminate|]. injection L as -> ->. pose proof (znth_range _ _ _ _ A) as RA. pose proof (znth_range _ _ _ _ B) as RB.
    rewrite zlen_cons in RA, RB. destruct (Z.eq_dec i 0) as [->|NE].
    + rewrite znth_0 in A. injection A as <-. replace j with (1 + (j - 1)) in B by lia.
      assert (B' : znth ops (j - 1) = Some b) by (rewrite <- B; replace (1 + (j - 1)) with ((j - 1) + 1) by lia; symmetry; apply znth_succ; lia).
      rewrite Forall_forall in F. apply F. apply in_map. exact (znth_In _ _ _ _ B').
    + apply (IH ops eq_refl (i - 1) (j - 1)); [lia| |].
      * rewrite <- A. replace i with ((i - 1) + 1) at 2 by lia. symmetry. apply znth_succ. lia.
      * rewrite <- B. replace j with ((j - 1) + 1) at 2 by lia. symmetry. apply znth_succ. lia.
Qed.

Lemma s64_signed : forall v, word v -> s64 v = signed 64 v.
Proof. intros v W. unfold signed. change (2 ^ (64 - 1)) with two63. change (2 ^ 64) with two64. unfold s64, word in *. destruct (v <? two63) eqn:E; [rewrite Z.mod_small by lia; lia|]. replace (v + two63) with (v - two63 + 1 * two64) by lia. rewrite Z.mod_add by lia. rewrite Z.mod_small by lia. lia. Qed.
Lemma u64_wrap : forall v, u64 v = wrap 64 v. Proof. reflexivity. Qed.

(* ------------------------------------------------------------------ registers *)
Lemma land_pow_testbit : forall w k, 0 <= k -> (Z.land w (2 ^ k) =? 0) = negb (Z.testbit w k).
Proof.
  intros w k K. destruct (Z.testbit w k) eqn:T; cbn [negb].
  - apply Z.eqb_neq. intros E. assert (X : Z.testbit (Z.land w (2 ^ k)) k = true) by (rewrite Z.land_spec, T, Z.pow2_bits_true by lia; reflexivity).
    rewrite E, Z.bits_0 in X. discriminate.
  - apply Z.eqb_eq. apply Z.bits_inj'. intros n N. rewrite Z.land_spec, Z.bits_0. destruct (Z.eq_dec n k) as [->|NE]; [rewrite T; reflexivity|].
    rewrite Z.pow2_bits_false by lia. apply andb_false_r.
Qed.
Lemma reg_get_known : forall b g r, regs_ok b g -> reg_get b g r = Ok (known b g r).
Proof.
  intros b g r (N & L3 & LV & FV & FS & NN). unfold reg_get, known. destruct (b_regno b r) as [k|] eqn:K; [|reflexivity]. specialize (NN r k K).
  destruct (b_nregs b <=? k) eqn:E; [replace (k <? b_nregs b) with false by lia; reflexivity|]. replace (k <? b_nregs b) with true by lia. cbn [andb].
  assert (0 <= k / 64 < 3) by (split; [apply Z.div_pos; lia|apply Z.div_lt_upper_bound; lia]).
  destruct (znth_in _ (g_set g) (k / 64) ltac:(lia)) as [w W]. rewrite W. rewrite land_pow_testbit by (apply Z.mod_pos_bound; lia).
  destruct (Z.testbit w (k mod 64)); cbn [negb]; [|reflexivity]. destruct (znth_in _ (g_val g) k ltac:(lia)) as [v V]. rewrite V. reflexivity.
Qed.
Lemma known_word : forall b g r v, regs_ok b g -> known b g r = Some v -> word v.
Proof.
  intros b g r v (N & L3 & LV & FV & FS & NN) H. unfold known in H. destruct (b_regno b r) as [k|]; [|discriminate]. destruct (_ && _); [|discriminate].
  apply znth_In in H. rewrite Forall_forall in FV. exact (FV v H).
Qed.
