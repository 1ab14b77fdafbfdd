(* Proofs about ScopeModel: the walk visits the tree. *)
From Verif Require Import Base ScopeModel ScopeSpec.
From Coq Require Import ZifyBool ZifyNat.

Scheme from_mut := Induction for from Sort Prop with after_mut := Induction for after Sort Prop with below_mut := Induction for below Sort Prop.
Combined Scheme tree_mut from from_mut, after_mut, below_mut.

Section tv.
Context {A : Type} (pre : nat -> list Z -> A -> outcome (A * bool * Z)) (post : option (nat -> list Z -> bool -> A -> outcome (A * Z))).
(* the visit of a tree *)
Fixpoint tv (depth : nat) (parents : list Z) (f : forest) (a : A) : outcome (A * Z) :=
  match f with
  | FNil => Ok (a, 0)
  | FNode c b n =>
    ' (x, r) <- pre (S depth) (c :: parents) a ;;
    let '(a, prune) := x in
    if negb (r =? 0) then Ok (a, r)
    else
      ' (a, r) <- (if negb prune then tv (S depth) (c :: parents) b a else Ok (a, 0)) ;;
      if negb (r =? 0) then Ok (a, r)
      else
        ' (a, r) <- match post with None => Ok (a, 0) | Some f => f (S depth) (c :: parents) prune a end ;;
        if negb (r =? 0) then Ok (a, r) else tv depth parents n a
  end.
Lemma tv_app : forall f n depth parents a, tv depth parents (fapp f n) a = ' (a, r) <- tv depth parents f a ;; if negb (r =? 0) then Ok (a, r) else tv depth parents n a.
Proof.
  induction f as [|d b _ m IH]; intros n depth parents a; cbn [fapp tv obind]; [reflexivity|].
  destruct (pre (S depth) (d :: parents) a) as [[[a1 prune] r]| | |]; cbn [obind]; try reflexivity.
  destruct (negb (r =? 0)) eqn:R; cbn [obind]; [rewrite R; reflexivity|].
  destruct (if negb prune then tv (S depth) (d :: parents) b a1 else Ok (a1, 0)) as [[a2 r2]| | |]; cbn [obind]; try reflexivity.
  destruct (negb (r2 =? 0)) eqn:R2; cbn [obind]; [rewrite R2; reflexivity|].
  destruct (match post with Some f => f (S depth) (d :: parents) prune a2 | None => Ok (a2, 0) end) as [[a3 r3]| | |]; cbn [obind]; try reflexivity.
  destruct (negb (r3 =? 0)) eqn:R3; cbn [obind]; [rewrite R3; reflexivity|]. apply IH.
Qed.
End tv.

Definition walks (w : view) (i : list Z) (c : Z) (f : forest) (k : nat) : Prop := forall A pre post k' depth parents (a : A), (k <= k')%nat -> walk w pre post k' depth parents i c a = tv pre post depth parents f a.
(* the search below any entry of the tree has enough fuel *)
Fixpoint reach (w : view) (k : nat) (f : forest) : Prop :=
  match f with
  | FNil => True
  | FNode d b n => (b <> FNil -> forall A pre post k' depth parents (a : A), (k <= k')%nat -> visit_scopes w pre post k' depth (d :: parents) [] a = tv pre post depth (d :: parents) b a) /\ reach w k b /\ reach w k n
  end.
Lemma reach_mono : forall w k k' f, (k <= k')%nat -> reach w k f -> reach w k' f.
Proof. intros w k k' f K. induction f as [|d b IHb n IHn]; cbn [reach]; [auto|]. intros (H & Hb & Hn). split; [|auto]. intros B A pre post k2 depth parents a K2. apply H; [exact B|lia]. Qed.
Lemma reach_app : forall w k f g, reach w k f -> reach w k g -> reach w k (fapp f g).
Proof. intros w k f g. induction f as [|d b IHb n IHn]; cbn [reach fapp]; [auto|]. intros (H & Hb & Hn) G. auto. Qed.

Lemma existsb_in : forall c i, existsb (Z.eqb c) i = true <-> In c i.
Proof. intros c i. rewrite existsb_exists. split; [intros (x & X & E); replace c with x by lia; exact X|intros H; exists c; split; [exact H|lia]]. Qed.

Lemma walk_tree : forall w, 
  (forall i c f, from w i c f -> exists k, (forall j, incl j i -> walks w j c f k) /\ reach w k f) /\
  (forall i c f, after w i c f -> exists k, reach w k f /\ match v_sib w c with Got c1 => forall j, incl j i -> walks w j c1 f k | NoMore => f = FNil | Bad => False end) /\
  (forall i c f, below w i c f -> exists k, reach w k f /\ (if may_have_scopes (v_tag w c) && v_haskids w c then match v_kid w c with Got c1 => forall j, incl j i -> walks w j c1 f k | NoMore => f = FNil | Bad => False end else f = FNil)).
Proof.
  intros w. apply tree_mut.
  - intros i c b n T B (kb & RB & HB) N (kn & RN & HN).
    assert (H2 : b <> FNil -> forall A pre post k' depth parents (a : A), (kb <= k')%nat -> visit_scopes w pre post k' depth (c :: parents) [] a = tv pre post depth (c :: parents) b a).
    { intros NE A pre post k' depth parents a K. destruct (may_have_scopes (v_tag w c) && v_haskids w c); [|contradiction]. unfold visit_scopes. destruct (v_kid w c) as [c1| |]; [|contradiction|contradiction]. apply HB; [apply incl_nil_l|exact K]. }
    exists (S (kb + kn)). split.
    + intros j J A pre post k' depth parents a K. destruct k' as [|k']; [lia|]. cbn [walk tv]. replace (v_tag w c =? TAG_imported_unit) with false by lia.
      assert (NX : forall a, match v_sib w c with Got c0 => walk w pre post k' depth parents j c0 a | NoMore => Ok (a, 0) | Bad => Ok (a, -1) end = tv pre post depth parents n a).
      { intros a0. destruct (v_sib w c); [apply HN; [exact J|lia]|rewrite HN; reflexivity|contradiction]. }
      destruct (pre (S depth) (c :: parents) a) as [[[a1 prune] r]| | |]; cbn [obind]; try reflexivity. destruct (negb (r =? 0)); [reflexivity|].
      assert (BL : (if negb prune && may_have_scopes (v_tag w c) && v_haskids w c then match v_kid w c with Got c1 => walk w pre post k' (S depth) (c :: parents) j c1 a1 | NoMore => Ok (a1, 0) | Bad => Ok (a1, -1) end else Ok (a1, 0))
        = if negb prune then tv pre post (S depth) (c :: parents) b a1 else Ok (a1, 0)).
      { destruct prune; cbn [negb andb]; [reflexivity|]. destruct (may_have_scopes (v_tag w c) && v_haskids w c); [|rewrite HB; reflexivity]. destruct (v_kid w c); [apply HB; [exact J|lia]|rewrite HB; reflexivity|contradiction]. }
      rewrite BL. destruct (if negb prune then _ else _) as [[a2 r2]| | |]; cbn [obind]; try reflexivity. destruct (negb (r2 =? 0)); [reflexivity|].
      destruct (match post with Some f => f (S depth) (c :: parents) prune a2 | None => Ok (a2, 0) end) as [[a3 r3]| | |]; cbn [obind]; try reflexivity. destruct (negb (r3 =? 0)); [reflexivity|]. apply NX.
    + cbn [reach]. split; [|split; [apply (reach_mono w kb); [lia|exact RB]|apply (reach_mono w kn); [lia|exact RN]]]. intros NE A pre post k' depth parents a K. apply H2; [exact NE|lia].
  - intros i c u c1 f n T IM KD NI F (kf & HF & RF) N (kn & RN & HN). exists (S (kf + kn)). split.
    + intros j J A pre post k' depth parents a K. destruct k' as [|k']; [lia|]. cbn [walk]. replace (v_tag w c =? TAG_imported_unit) with true by lia. rewrite IM, KD.
      replace (existsb (Z.eqb c) j) with false by (symmetry; apply not_true_iff_false; rewrite existsb_in; auto). assert (J2 : incl (c :: j) (c :: i)) by (intros y [Y|Y]; [left; exact Y|right; auto]). rewrite (HF _ J2) by lia. rewrite tv_app.
      destruct (tv pre post depth parents f a) as [[a1 r]| | |]; cbn [obind]; try reflexivity. destruct (negb (r =? 0)); [reflexivity|]. destruct (v_sib w c); [apply HN; [exact J|lia]|rewrite HN; reflexivity|contradiction].
    + apply reach_app; [apply (reach_mono w kf); [lia|exact RF]|apply (reach_mono w kn); [lia|exact RN]].
  - intros i c n T IM N (kn & RN & HN). exists (S kn). split; [|apply (reach_mono w kn); [lia|exact RN]].
    intros j J A pre post k' depth parents a K. destruct k' as [|k']; [lia|]. cbn [walk]. replace (v_tag w c =? TAG_imported_unit) with true by lia.
    assert (NX : match v_sib w c with Got c0 => walk w pre post k' depth parents j c0 a | NoMore => Ok (a, 0) | Bad => Ok (a, -1) end = tv pre post depth parents n a).
    { destruct (v_sib w c); [apply HN; [exact J|lia]|rewrite HN; reflexivity|contradiction]. }
    destruct (v_import w c) as [u|]; [|exact NX]. specialize (IM u). destruct (v_kid w u) as [c1| |]; [destruct (IM c1 eq_refl eq_refl)|exact NX|exact NX].
  - intros i c E. exists O. rewrite E. split; [exact Logic.I|reflexivity].
  - intros i c c1 f E F (k & H & R). exists k. rewrite E. auto.
  - intros i c E. exists O. rewrite E. split; [exact Logic.I|reflexivity].
  - intros i c E. exists O. rewrite E. split; [exact Logic.I|]. destruct (_ && _); reflexivity.
  - intros i c c1 f E KD F (k & H & R). exists k. rewrite E, KD. split; [exact R|exact H].
Qed.
Lemma unit_walk : forall w cu f, unit_tree w cu f -> exists k, reach w k f /\ forall A pre post k' depth (a : A), (k <= k')%nat -> visit_scopes w pre post k' depth [cu] [] a = tv pre post depth [cu] f a.
Proof.
  intros w cu f H. unfold unit_tree in H. unfold visit_scopes. destruct (v_kid w cu) as [c| |] eqn:K; [|subst f; exists O; split; [exact Logic.I|reflexivity]|contradiction].
  destruct (proj1 (walk_tree w) _ _ _ H) as (k & W & R). exists k. split; [exact R|]. intros A pre post k' depth a K'. apply W; [apply incl_refl|exact K'].
Qed.

(* ------------------------------------------------------------------ occurrences *)
Lemma occurrence_some : forall x f p, occurrence x f = Some p -> path f p /\ exists r, p = r ++ [x].
Proof.
  intros x f. induction f as [|d b IHb n IHn]; intros p H; cbn [occurrence] in H; [discriminate|]. destruct (d =? x) eqn:D.
  - injection H as <-. split; [constructor|]. exists []. cbn [app]. f_equal. lia.
  - destruct (occurrence x b) as [q|].
    + injection H as <-. destruct (IHb q eq_refl) as (P & r & ->). split; [constructor; exact P|]. exists (d :: r). reflexivity.
    + destruct (IHn p H) as (P & R). split; [apply path_next; exact P|exact R].
Qed.
Lemma path_nonempty : forall f, ~ path f [].
Proof. intros f H. remember [] as p. induction H; try discriminate. auto. Qed.
Lemma occurrence_none : forall x f, occurrence x f = None <-> forall r, ~ path f (r ++ [x]).
Proof.
  intros x f. induction f as [|d b IHb n IHn]; cbn [occurrence]; [split; [intros _ r H; inversion H|reflexivity]|].
  destruct (d =? x) eqn:D; [split; [discriminate|]; intros H; exfalso; apply (H []); replace x with d by lia; constructor|].
  destruct (occurrence x b) as [q|] eqn:B.
  - split; [discriminate|]. intros H. exfalso. destruct (occurrence_some _ _ _ B) as (P & r & ->). apply (H (d :: r)). cbn [app]. constructor. exact P.
  - rewrite IHn. split.
    + intros H r P. remember (r ++ [x]) as p eqn:E. remember (FNode d b n) as g eqn:G. destruct P as [d0 b0 n0|d0 b0 n0 p P|d0 b0 n0 p P]; injection G as -> -> ->.
      * destruct r as [|y [|z r]]; cbn [app] in E; try discriminate. injection E as ->. lia.
      * destruct r as [|y r]; cbn [app] in E; injection E as -> ->; [exact (path_nonempty _ P)|exact (proj1 IHb eq_refl r P)].
      * subst p. exact (H r P).
    + intros H r P. apply (H r). apply path_next. exact P.
Qed.
