(* C43: the linked-list macros of lib/list.h. *)
From Verif Require Import Base ListModel.
From Coq Require Import Sorting.Permutation.

(* Following f from a, one meets the elements of l and then b. *)
Fixpoint path (f : Z -> Z) (a : Z) (l : list Z) (b : Z) : Prop :=
  match l with [] => f a = b | x :: r => f a = x /\ path f x r b end.

(* A circular doubly linked list with the elements l in this order: [first] is the
   first of them; [next] leads through the others back to it, [previous] through
   them in reverse order. *)
Definition cdbl (h : heap) (first : Z) (l : list Z) : Prop :=
  NoDup l /\ ~ In 0 l /\
  match l with
  | [] => first = 0
  | x :: r => first = x /\ path (nx h) x r x /\ path (pv h) x (rev r) x
  end.
(* A circular singly linked list: [first] is the last element of l. *)
Definition csngl (h : heap) (first : Z) (l : list Z) : Prop :=
  NoDup l /\ ~ In 0 l /\
  ((l = [] /\ first = 0) \/ exists r, l = r ++ [first] /\ path (nx h) first r first).
(* A NULL-terminated list. *)
Definition sngl (h : heap) (first : Z) (l : list Z) : Prop :=
  NoDup l /\ ~ In 0 l /\
  match l with [] => first = 0 | x :: r => first = x /\ path (nx h) x r 0 end.

Definition unlinked (h : heap) (x : Z) : Prop := nx h x = 0 /\ pv h x = 0.

(* ------------------------------------------------------------------ *)
Lemma nil_or_snoc : forall l : list Z, l = [] \/ exists l0 z, l = l0 ++ [z].
Proof. intros l. destruct l as [|x l]; [left; reflexivity|right]. destruct (exists_last (l := x :: l)) as (l0 & z & E); [discriminate|eauto]. Qed.
Lemma path_app : forall f l1 a x l2 b, path f a (l1 ++ x :: l2) b <-> path f a l1 x /\ path f x l2 b.
Proof.
  induction l1 as [|y l1 IH]; intros a x l2 b; cbn [app path]; [tauto|]. rewrite IH. tauto.
Qed.
Lemma path_ext : forall f g l a b, (forall x, In x (a :: l) -> f x = g x) -> path f a l b -> path g a l b.
Proof.
  induction l as [|y l IH]; intros a b H; cbn [path].
  - intros <-. symmetry. apply H. left. reflexivity.
  - intros [<- P]. split; [symmetry; apply H; left; reflexivity|]. apply IH; [|exact P].
    intros x X. apply H. right. exact X.
Qed.
Lemma upd_same : forall f a v, upd f a v a = v.
Proof. intros. unfold upd. rewrite Z.eqb_refl. reflexivity. Qed.
Lemma upd_other : forall f a v x, x <> a -> upd f a v x = f x.
Proof. intros. unfold upd. replace (x =? a) with false by lia. reflexivity. Qed.
(* appending to the end of a path that closes *)
Lemma path_ext_upd : forall f l a b z v, ~ In z (a :: l) -> path f a l b -> path (upd f z v) a l b.
Proof.
  intros f l a b z v N P. apply (path_ext f); [|exact P]. intros x X. symmetry. apply upd_other. intros ->. contradiction.
Qed.
(* the last node of a path *)
Definition lastn (a : Z) (l : list Z) : Z := last l a.
Lemma lastn_snoc : forall a l x, lastn a (l ++ [x]) = x.
Proof. intros. unfold lastn. apply last_last. Qed.
(* Redirecting the last node. *)
Lemma path_redirect : forall f a l b v, NoDup (a :: l) -> path f a l b -> path (upd f (lastn a l) v) a l v.
Proof.
  intros f a l b v ND P. destruct (nil_or_snoc l) as [->|(l0 & z & ->)].
  - cbn [path lastn last]. apply upd_same.
  - rewrite lastn_snoc. rewrite path_app in P |- *. destruct P as [P1 P2]. split.
    + apply path_ext_upd; [|exact P1]. intros X. 
      change (a :: l0 ++ [z]) with ((a :: l0) ++ [z]) in ND. apply NoDup_remove_2 in ND. rewrite app_nil_r in ND. contradiction.
    + cbn [path]. apply upd_same.
Qed.
Lemma path_last : forall f a l b, path f a l b -> f (lastn a l) = b.
Proof.
  intros f a l b P. destruct (nil_or_snoc l) as [->|(l0 & z & ->)]; [exact P|].
  rewrite lastn_snoc. apply path_app in P. exact (proj2 P).
Qed.

Lemma rev_first : forall f x r, path f x (rev r) x -> f x = lastn x r.
Proof.
  intros f x r P. destruct (nil_or_snoc r) as [->|(l0 & z & ->)]; [exact P|].
  rewrite lastn_snoc. rewrite rev_app_distr in P. cbn in P. exact (proj1 P).
Qed.

(* ------------------------------------------------------------------ *)
Lemma cdbl_add_ok : forall dbg h first l x, cdbl h first l -> x <> 0 -> ~ In x l -> (dbg = true -> unlinked h x) ->
  exists h' first', cdbl_add_rear dbg h first x = Ok (h', first') /\ cdbl h' first' (l ++ [x]) /\
    (forall y, y <> x -> ~ In y l -> nx h' y = nx h y /\ pv h' y = pv h y).
Proof.
  intros dbg h first l x (ND & NZ & C) X0 NI UL. unfold cdbl_add_rear, get_nx, get_pv. replace (x =? 0) with false by lia. cbn [obind].
  assert (A : forall c, (dbg = true -> c = true) -> assertion dbg c = Ok tt).
  { intros c H. unfold assertion. destruct dbg; [rewrite H by reflexivity|]; reflexivity. }
  rewrite A by (intros D; destruct (UL D) as [-> _]; reflexivity). cbn [obind].
  rewrite A by (intros D; destruct (UL D) as [_ ->]; reflexivity). cbn [obind].
  unfold set_nx, set_pv.
  assert (ND' : NoDup (l ++ [x])).
  { apply NoDup_Add with (a := x) (l := l); [|split; assumption]. rewrite <- (app_nil_r l) at 1. apply Add_app. }
  assert (NZ' : ~ In 0 (l ++ [x])) by (rewrite in_app_iff; intros [I|[I|[]]]; [contradiction|congruence]).
  destruct l as [|y r].
  - subst first. cbn [Z.eqb]. replace (x =? 0) with false by lia. cbn [obind].
    eexists. eexists. split; [reflexivity|]. split.
    + split; [exact ND'|]. split; [exact NZ'|]. cbn [app rev path nx pv]. rewrite !upd_same. auto.
    + intros y Y _. cbn [nx pv]. rewrite !upd_other by assumption. auto.
  - destruct C as (-> & P & Q). assert (Y0 : y <> 0) by (intros ->; apply NZ; left; reflexivity).
    assert (XY : x <> y) by (intros ->; apply NI; left; reflexivity).
    replace (y =? 0) with false by lia. replace (x =? 0) with false by lia. cbn [obind nx pv].
    rewrite !upd_same.
    pose proof (rev_first (pv h) y r Q) as L. rewrite L.
    assert (LI : In (lastn y r) (y :: r)).
    { destruct (nil_or_snoc r) as [->|(l0 & z & ->)]; [left; reflexivity|]. rewrite lastn_snoc. right. apply in_or_app. right. left. reflexivity. }
    assert (L0 : lastn y r <> 0) by (intros E; rewrite E in LI; contradiction).
    assert (LX : lastn y r <> x) by (intros E; rewrite E in LI; contradiction).
    try replace (y =? 0) with false by lia. cbn [obind nx pv]. replace (lastn y r =? 0) with false by lia. cbn [obind].
    eexists. eexists. split; [reflexivity|]. split.
    + split; [exact ND'|]. split; [exact NZ'|]. cbn [app nx pv]. split; [reflexivity|]. split.
      * change (path (upd (upd (nx h) x y) (lastn y r) x) y (r ++ x :: []) y). apply path_app. split.
        { apply (path_redirect _ _ _ y); [exact ND|]. apply path_ext_upd; [exact NI|exact P]. }
        cbn [path]. rewrite upd_other by congruence. apply upd_same.
      * rewrite rev_app_distr. cbn [rev app path]. rewrite upd_same. split; [reflexivity|].
        destruct (nil_or_snoc r) as [->|(l0 & z & ->)].
        { cbn [rev app path lastn last]. rewrite upd_other by congruence. apply upd_same. }
        rewrite lastn_snoc in *. rewrite rev_app_distr in *. cbn [rev app path] in *. destruct Q as [Q1 Q2].
        split; [rewrite upd_other by congruence; apply upd_same|].
        apply path_ext_upd; [|apply path_ext_upd; [|exact Q2]].
        { intros I. assert (In y (l0 ++ [z])) by (apply in_or_app; cbn in I |- *; rewrite <- in_rev in I; tauto).
          inversion ND; contradiction. }
        { intros I. apply NI. right. apply in_or_app. cbn in I |- *. rewrite <- in_rev in I. tauto. }
    + intros w W WI. cbn [nx pv]. rewrite !upd_other; auto; try (intros ->; contradiction). intros ->. apply WI. left. reflexivity.
Qed.

(* unlinking the node e of a circle *)
Lemma path_unlink : forall f e y m, NoDup (e :: y :: m) -> path f e (y :: m) e ->
  path (upd f (lastn y m) y) y m y.
Proof.
  intros f e y m ND [_ P]. apply (path_redirect _ _ _ e); [|exact P]. inversion ND; assumption.
Qed.
Lemma circle_rot : forall f a l1 b l2, path f a (l1 ++ b :: l2) a -> path f b (l2 ++ a :: l1) b.
Proof. intros f a l1 b l2 P. apply path_app in P. apply path_app. tauto. Qed.

Lemma lastn_rev : forall y m, lastn y m = hd y (rev (y :: m)).
Proof.
  intros y m. destruct (nil_or_snoc m) as [->|(l0 & z & ->)]; [reflexivity|]. rewrite lastn_snoc.
  cbn [rev]. rewrite rev_app_distr. reflexivity.
Qed.

(* Both directions of a circle through e, without e. *)
Lemma circle_del : forall n p e y m, NoDup (e :: y :: m) -> path n e (y :: m) e -> path p e (rev (y :: m)) e ->
  n e = y /\ p e = lastn y m /\
  path (upd n (lastn y m) y) y m y /\ path (upd p y (lastn y m)) y (rev m) y.
Proof.
  intros n p e y m ND P Q. split; [exact (proj1 P)|]. split.
  { rewrite lastn_rev. destruct (rev (y :: m)) eqn:E; [apply (f_equal (@length Z)) in E; rewrite rev_length in E; discriminate|]. exact (proj1 Q). }
  split; [exact (path_unlink n e y m ND P)|].
  destruct (nil_or_snoc m) as [->|(l0 & z & ->)].
  { cbn [rev path lastn last]. apply upd_same. }
  rewrite lastn_snoc. cbn [rev] in Q. rewrite rev_app_distr in *. cbn [rev app path] in *. destruct Q as [Q1 Q2].
  split; [apply upd_same|].
  apply path_app in Q2. destruct Q2 as [Q2 _].
  apply path_ext_upd; [|exact Q2].
  intros I. inversion ND as [|? ? _ ND2]; subst. inversion ND2 as [|? ? NI _]; subst. apply NI. apply in_or_app.
  cbn in I |- *. rewrite <- in_rev in I. tauto.
Qed.

Lemma lastn_in : forall y m, In (lastn y m) (y :: m).
Proof.
  intros y m. destruct (nil_or_snoc m) as [->|(l0 & z & ->)]; [left; reflexivity|].
  rewrite lastn_snoc. right. apply in_or_app. right. left. reflexivity.
Qed.

(* the walk of the assertion, started on the list, comes back to the first element *)
Lemma del_walk_ok : forall h first m a fuel, path (nx h) a m first -> ~ In 0 m -> first <> 0 ->
  (length m < fuel)%nat -> del_walk fuel h first first (nx h a) = Ok first.
Proof.
  induction m as [|y m IH]; intros a fuel P NZ F0 FU; destruct fuel as [|fuel]; cbn [length] in FU; try lia; cbn [del_walk].
  - cbn [path] in P. rewrite P, Z.eqb_refl. reflexivity.
  - destruct P as [-> P]. destruct (y =? first) eqn:E; [f_equal; lia|].
    unfold get_nx. assert (y <> 0) by (intros ->; apply NZ; left; reflexivity). replace (y =? 0) with false by lia. cbn [obind].
    apply IH; [exact P| |exact F0|lia]. intros I. apply NZ. right. exact I.
Qed.

Definition without (e : Z) (l : list Z) : list Z := filter (fun x => negb (x =? e)) l.
Lemma without_notin : forall e l, ~ In e l -> without e l = l.
Proof.
  induction l as [|y l IH]; intros N; [reflexivity|]. cbn [without filter].
  destruct (y =? e) eqn:E; [exfalso; apply N; left; lia|]. cbn [negb]. f_equal. apply IH. intros I. apply N. right. exact I.
Qed.
Lemma without_split : forall l1 e l2, NoDup (l1 ++ e :: l2) -> without e (l1 ++ e :: l2) = l1 ++ l2.
Proof.
  intros l1 e l2 ND. pose proof (NoDup_remove_2 _ _ _ ND) as N. unfold without. rewrite filter_app. cbn [filter]. rewrite Z.eqb_refl. cbn [negb].
  f_equal; apply without_notin; intros I; apply N; apply in_or_app; auto.
Qed.

Lemma cdbl_del_ok : forall dbg fuel h first l e, cdbl h first l -> In e l -> (length l <= fuel)%nat ->
  exists h' first', cdbl_del dbg fuel h first e = Ok (h', first') /\ cdbl h' first' (without e l) /\
    (forall y, ~ In y l -> nx h' y = nx h y /\ pv h' y = pv h y) /\ (dbg = true -> unlinked h' e).
Proof.
  intros dbg fuel h first l e (ND & NZ & C) I FU.
  assert (E0 : e <> 0) by (intros ->; contradiction).
  destruct l as [|x r]; [destruct I|]. destruct C as (-> & P & Q).
  assert (X0 : x <> 0) by (intros ->; apply NZ; left; reflexivity).
  assert (CHK : (if dbg then c <- del_check fuel h x e;; assertion dbg c else Ok tt) = Ok tt).
  { destruct dbg; [|reflexivity]. unfold del_check. replace ((x =? 0) || (e =? 0)) with false by lia.
    destruct (x =? e) eqn:XE; cbn [negb]; [|reflexivity]. unfold get_nx. replace (x =? 0) with false by lia. cbn [obind].
    replace e with x by lia. rewrite (del_walk_ok h x r x fuel); try assumption; [|intros J; apply NZ; right; exact J].
    cbn [obind]. rewrite Z.eqb_refl. reflexivity. }
  unfold cdbl_del. rewrite CHK. clear CHK. cbn [obind]. unfold get_nx, get_pv, set_nx, set_pv. replace (e =? 0) with false by lia. cbn [obind].
  assert (NDW : NoDup (without e (x :: r))) by (apply NoDup_filter; exact ND).
  assert (NZW : ~ In 0 (without e (x :: r))) by (intros J; apply filter_In in J; tauto).
  (* the circle seen from e *)
  assert (S : (r = [] /\ x = e) \/ exists y m, NoDup (e :: y :: m) /\ (forall z, In z (e :: y :: m) <-> In z (x :: r)) /\
     path (nx h) e (y :: m) e /\ path (pv h) e (rev (y :: m)) e /\
     forall n p, path n y m y -> path p y (rev m) y ->
       match without e (x :: r) with [] => False | b :: t => (if x =? e then y else x) = b /\ path n b t b /\ path p b (rev t) b end).
  { destruct (Z.eq_dec x e) as [->|XE].
    - destruct r as [|y m]; [left; auto|right]. exists y, m. split; [exact ND|]. split; [tauto|]. split; [exact P|]. split; [exact Q|].
      intros n p Pn Pp. pose proof (without_split [] e (y :: m) ND) as W. cbn [app] in W. rewrite W. rewrite Z.eqb_refl. auto.
    - right. destruct I as [I|I]; [contradiction|]. apply in_split in I. destruct I as (r1 & r2 & ->).
      assert (W : without e (x :: r1 ++ e :: r2) = x :: r1 ++ r2) by (apply (without_split (x :: r1) e r2 ND)).
      pose proof (circle_rot _ _ _ _ _ P) as P'. rewrite rev_app_distr in Q. cbn [rev] in Q. rewrite <- app_assoc in Q. cbn [app] in Q.
      pose proof (circle_rot _ _ _ _ _ Q) as Q'.
      assert (EQ : exists y m, r2 ++ x :: r1 = y :: m) by (destruct r2; cbn; eauto). destruct EQ as (y & m & EQ).
      exists y, m. rewrite <- EQ.
      assert (RV : rev (r2 ++ x :: r1) = rev r1 ++ x :: rev r2).
      { rewrite rev_app_distr. cbn [rev]. rewrite <- app_assoc. reflexivity. }
      split.
      { apply (Permutation_NoDup (l := x :: r1 ++ e :: r2)); [|exact ND].
        change (x :: r1 ++ e :: r2) with ((x :: r1) ++ e :: r2). etransitivity; [apply Permutation_app_comm|]. reflexivity. }
      split.
      { intros z. cbn [In app]. rewrite !in_app_iff. cbn [In]. tauto. }
      split; [exact P'|]. split; [rewrite RV; exact Q'|].
      intros n p Pn Pp. rewrite W. replace (x =? e) with false by lia. split; [reflexivity|].
      destruct r2 as [|y' r2']; cbn [app] in EQ; inversion EQ; subst y m.
      + rewrite app_nil_r. auto.
      + split; [apply circle_rot; exact Pn|]. rewrite rev_app_distr in Pp |- *. cbn [rev] in Pp |- *. rewrite <- app_assoc in Pp |- *. cbn [app] in Pp |- *.
        apply circle_rot. exact Pp. }
  destruct S as [(-> & ->)|(y & m & ND' & INS & P' & Q' & REST)].
  - cbn [path] in P. rewrite P, Z.eqb_refl. cbn [obind].
    assert (W : without e [e] = []) by (cbn; rewrite Z.eqb_refl; reflexivity).
    destruct dbg; cbn [obind nx pv]; (eexists; eexists; split; [reflexivity|]; split;
      [split; [exact NDW|]; split; [exact NZW|]; rewrite W; reflexivity|split]).
    + intros z Z. cbn [nx pv]. rewrite !upd_other; auto; intros ->; apply Z; left; reflexivity.
    + intros _. split; cbn [nx pv]; apply upd_same.
    + auto.
    + discriminate.
  - destruct (circle_del _ _ _ _ _ ND' P' Q') as (N1 & N2 & P2 & Q2). rewrite N1, N2.
    assert (YE : y <> e) by (intros ->; inversion ND'; cbn in *; tauto).
    assert (LE : lastn y m <> e) by (intros E; pose proof (lastn_in y m) as L; rewrite E in L; inversion ND'; contradiction).
    assert (NZ' : ~ In 0 (e :: y :: m)) by (rewrite INS; exact NZ).
    assert (Y0 : y <> 0) by (intros ->; apply NZ'; right; left; reflexivity).
    assert (L0 : lastn y m <> 0) by (intros E; pose proof (lastn_in y m) as L; rewrite E in L; apply NZ'; right; exact L).
    replace (y =? e) with false by lia. replace (y =? 0) with false by lia. cbn [obind nx pv].
    rewrite !(upd_other _ y) by congruence. rewrite N2. replace (lastn y m =? 0) with false by lia. cbn [obind nx pv].
    rewrite N1. rewrite !(upd_other _ (lastn y m)) by congruence. rewrite N1.
    assert (NE : ~ In e (y :: m)) by (inversion ND'; assumption).
    assert (NE' : ~ In e (y :: rev m)) by (intros J; apply NE; cbn in J |- *; rewrite <- in_rev in J; exact J).
    assert (OUT : forall z, ~ In z (x :: r) -> z <> y /\ z <> lastn y m /\ z <> e).
    { intros z Z. rewrite <- INS in Z. split; [intros ->; apply Z; right; left; reflexivity|]. split; [|intros ->; apply Z; left; reflexivity].
      intros ->. apply Z. right. apply lastn_in. }
    destruct dbg; cbn [obind nx pv]; (eexists; eexists; split; [reflexivity|]; split;
      [split; [exact NDW|]; split; [exact NZW|]|split]); cbn [nx pv].
    + specialize (REST _ _ (path_ext_upd _ _ _ _ e 0 NE P2) (path_ext_upd _ _ _ _ e 0 NE' Q2)).
      destruct (without e (x :: r)); [destruct REST|exact REST].
    + intros z Z. destruct (OUT z Z) as (? & ? & ?). rewrite !upd_other by assumption. auto.
    + intros _. split; cbn [nx pv]; apply upd_same.
    + specialize (REST _ _ P2 Q2). destruct (without e (x :: r)); [destruct REST|exact REST].
    + intros z Z. destruct (OUT z Z) as (? & ? & ?). rewrite !upd_other by assumption. auto.
    + discriminate.
Qed.

(* ------------------------------------------------------------------ *)
Lemma csngl_add_ok : forall dbg h first l x, csngl h first l -> x <> 0 -> ~ In x l -> (dbg = true -> nx h x = 0) ->
  exists h', csngl_add_rear dbg h first x = Ok (h', x) /\ csngl h' x (l ++ [x]) /\
    (forall y, y <> x -> ~ In y l -> nx h' y = nx h y).
Proof.
  intros dbg h first l x (ND & NZ & C) X0 NI UL. unfold csngl_add_rear, get_nx, set_nx. replace (x =? 0) with false by lia. cbn [obind].
  assert (A : assertion dbg (nx h x =? 0) = Ok tt).
  { unfold assertion. destruct dbg; [rewrite UL by reflexivity|]; reflexivity. }
  rewrite A. cbn [obind].
  assert (ND' : NoDup (l ++ [x])).
  { apply NoDup_Add with (a := x) (l := l); [|split; assumption]. rewrite <- (app_nil_r l) at 1. apply Add_app. }
  assert (NZ' : ~ In 0 (l ++ [x])) by (rewrite in_app_iff; intros [I|[I|[]]]; [contradiction|congruence]).
  destruct C as [(-> & ->)|(r & -> & P)].
  - cbn [Z.eqb]. eexists. split; [reflexivity|]. split.
    + split; [exact ND'|]. split; [exact NZ'|]. right. exists []. split; [reflexivity|]. cbn [path nx]. apply upd_same.
    + intros y Y _. cbn [nx]. apply upd_other. exact Y.
  - assert (FI : In first (r ++ [first])) by (apply in_or_app; right; left; reflexivity).
    assert (F0 : first <> 0) by (intros ->; contradiction).
    assert (FX : first <> x) by (intros ->; contradiction).
    replace (first =? 0) with false by lia. cbn [obind nx].
    eexists. split; [reflexivity|]. split.
    + split; [exact ND'|]. split; [exact NZ'|]. right. exists (r ++ [first]). split; [reflexivity|]. cbn [nx].
      change (path (upd (upd (nx h) x (nx h first)) first x) x (r ++ first :: []) x). apply path_app. split; [|cbn [path]; apply upd_same].
      assert (NF : ~ In first r).
      { apply NoDup_remove_2 in ND. rewrite app_nil_r in ND. exact ND. }
      destruct r as [|y r']; cbn [path] in P |- *.
      * rewrite upd_other by congruence. rewrite upd_same. exact P.
      * destruct P as [P1 P2]. split; [rewrite upd_other by congruence; rewrite upd_same; exact P1|].
        apply path_ext_upd; [exact NF|]. apply path_ext_upd; [|exact P2]. intros J. apply NI. apply in_or_app. left. exact J.
    + intros w W WI. cbn [nx]. rewrite !upd_other; auto. intros ->. contradiction.
Qed.

Lemma sngl_push_ok : forall dbg h first l x, sngl h first l -> x <> 0 -> ~ In x l -> (dbg = true -> nx h x = 0) ->
  exists h', sngl_push dbg h first x = Ok (h', x) /\ sngl h' x (x :: l) /\
    (forall y, y <> x -> nx h' y = nx h y).
Proof.
  intros dbg h first l x (ND & NZ & C) X0 NI UL. unfold sngl_push, get_nx, set_nx. replace (x =? 0) with false by lia. cbn [obind].
  assert (A : assertion dbg (nx h x =? 0) = Ok tt).
  { unfold assertion. destruct dbg; [rewrite UL by reflexivity|]; reflexivity. }
  rewrite A. cbn [obind]. eexists. split; [reflexivity|]. split.
  - split; [constructor; assumption|]. split; [intros [I|I]; [congruence|contradiction]|]. split; [reflexivity|]. cbn [nx].
    destruct l as [|y r]; cbn [path]; rewrite upd_same; [exact C|]. destruct C as (-> & P). split; [reflexivity|].
    apply path_ext_upd; assumption.
  - intros y Y. cbn [nx]. apply upd_other. exact Y.
Qed.

(* ------------------------------------------------------------------ *)
(* C43: histories. *)
Inductive lop := Add (x : Z) | Del (x : Z).
(* What the list should contain after one more operation; None when the caller
   breaks the contract (adding NULL or a node already on the list, deleting a node
   that is not on it). *)
Definition spec_step (l : list Z) (o : lop) : option (list Z) :=
  match o with
  | Add x => if (x =? 0) || existsb (Z.eqb x) l then None else Some (l ++ [x])
  | Del x => if existsb (Z.eqb x) l then Some (filter (fun y => negb (y =? x)) l) else None
  end.
Fixpoint spec_run (l : list Z) (os : list lop) : option (list Z) :=
  match os with [] => Some l | o :: os => match spec_step l o with Some l => spec_run l os | None => None end end.
Definition run_op (dbg : bool) (fuel : nat) (s : heap * Z) (o : lop) : outcome (heap * Z) :=
  match o with Add x => cdbl_add_rear dbg (fst s) (snd s) x | Del x => cdbl_del dbg fuel (fst s) (snd s) x end.
Fixpoint run (dbg : bool) (fuel : nat) (s : heap * Z) (os : list lop) : outcome (heap * Z) :=
  match os with [] => Ok s | o :: os => s <- run_op dbg fuel s o ;; run dbg fuel s os end.

Definition fresh_heap : heap := Heap (fun _ => 0) (fun _ => 0).

Lemma existsb_in : forall x l, existsb (Z.eqb x) l = true <-> In x l.
Proof.
  intros x l. rewrite existsb_exists. split.
  - intros (y & Y & E). replace x with y by lia. exact Y.
  - intros I. exists x. split; [exact I|apply Z.eqb_refl].
Qed.
Lemma filter_len : forall (f : Z -> bool) l, (length (filter f l) <= length l)%nat.
Proof. induction l; cbn; [lia|]. destruct (f a); cbn; lia. Qed.

Lemma run_ok : forall dbg fuel os h first l l', cdbl h first l ->
  (dbg = true -> forall x, ~ In x l -> unlinked h x) -> spec_run l os = Some l' ->
  (length l + length os <= fuel)%nat ->
  exists h' first', run dbg fuel (h, first) os = Ok (h', first') /\ cdbl h' first' l' /\
    (dbg = true -> forall x, ~ In x l' -> unlinked h' x) /\
    (forall y, ~ In y l -> ~ In (Add y) os -> nx h' y = nx h y /\ pv h' y = pv h y).
Proof.
  induction os as [|o os IH]; intros h first l l' C UL S FU; cbn [spec_run run] in *.
  - inversion S; subst. eexists. eexists. split; [reflexivity|]. auto.
  - destruct (spec_step l o) as [l1|] eqn:E; [|discriminate]. cbn [length] in FU. destruct o as [x|x]; cbn [spec_step run_op fst snd] in *.
    + destruct ((x =? 0) || existsb (Z.eqb x) l) eqn:B; [discriminate|]. inversion E; subst l1.
      apply orb_false_iff in B. destruct B as [B1 B2].
      assert (NI : ~ In x l) by (rewrite <- existsb_in; congruence).
      destruct (cdbl_add_ok dbg h first l x C) as (h1 & f1 & -> & C1 & FR); [lia|exact NI|auto|]. cbn [obind].
      destruct (IH h1 f1 (l ++ [x]) l' C1) as (h' & f' & -> & C' & UL' & FR'); [|exact S|rewrite app_length; cbn [length]; lia|].
      { intros D y Y. rewrite in_app_iff in Y. cbn in Y. destruct (FR y) as [N P]; [intros ->; tauto|tauto|]. unfold unlinked. rewrite N, P. apply UL; tauto. }
      eexists. eexists. split; [reflexivity|]. split; [exact C'|]. split; [exact UL'|].
      intros y Y A. cbn [In] in A. assert (y <> x) by (intros ->; apply A; left; reflexivity).
      destruct (FR y) as [<- <-]; [assumption|assumption|]. apply FR'; [|tauto]. rewrite in_app_iff. cbn. intuition congruence.
    + destruct (existsb (Z.eqb x) l) eqn:B; [|discriminate]. inversion E; subst l1. apply existsb_in in B.
      destruct (cdbl_del_ok dbg fuel h first l x C B) as (h1 & f1 & -> & C1 & FR & CL); [lia|]. cbn [obind].
      destruct (IH h1 f1 (without x l) l' C1) as (h' & f' & -> & C' & UL' & FR'); [|exact S|pose proof (filter_len (fun y => negb (y =? x)) l); unfold without; lia|].
      { intros D y Y. destruct (Z.eq_dec y x) as [->|N]; [apply CL; exact D|].
        assert (YI : ~ In y l) by (intros I; apply Y; apply filter_In; split; [exact I|lia]).
        destruct (FR y YI) as [A P]. unfold unlinked. rewrite A, P. apply UL; assumption. }
      eexists. eexists. split; [reflexivity|]. split; [exact C'|]. split; [exact UL'|].
      intros y Y A. destruct (FR y Y) as [<- <-]. apply FR'; [|cbn [In] in A; tauto]. intros I. apply filter_In in I. tauto.
Qed.

(* Any sequence of additions and deletions that keeps the contract, from an empty
   list: nothing faults, no assertion fails, and the list is a well-formed circle of
   the nodes added and not deleted since, in the order they were added.  Nodes never
   added are not touched.  (The bound only concerns the loop inside the assertion of
   CDBL_LIST_DEL: it always ends.) *)
Theorem C43_cdbl_history : forall dbg os l, spec_run [] os = Some l ->
  forall fuel, (length os <= fuel)%nat ->
  exists h first, run dbg fuel (fresh_heap, 0) os = Ok (h, first) /\ cdbl h first l /\
    (forall y, ~ In (Add y) os -> nx h y = 0 /\ pv h y = 0).
Proof.
  intros dbg os l S fuel FU.
  destruct (run_ok dbg fuel os fresh_heap 0 [] l) as (h & f & R & C & _ & FR).
  - split; [constructor|]. split; [intros []|reflexivity].
  - intros _ x _. split; reflexivity.
  - exact S.
  - exact FU.
  - exists h, f. split; [exact R|]. split; [exact C|]. intros y Y. exact (FR y (fun I => I) Y).
Qed.
Print Assumptions C43_cdbl_history.
Example C43_cdbl_history_nonvacuous :
  spec_run [] [Add 16; Add 32; Add 48; Del 16; Add 16; Del 48] = Some [32; 16] /\
  match run true 9 (fresh_heap, 0) [Add 16; Add 32; Add 48; Del 16; Add 16; Del 48] with
  | Ok (h, f) => Some (f, nx h 32, nx h 16, pv h 32, nx h 48) | _ => None end = Some (32, 16, 32, 16, 0).
Proof. split; vm_compute; reflexivity. Qed.

(* One deletion, from any well-formed list: the frame. *)
Theorem C43_cdbl_delete : forall dbg fuel h first l e, cdbl h first l -> In e l -> (length l <= fuel)%nat ->
  exists h' first', cdbl_del dbg fuel h first e = Ok (h', first') /\
    cdbl h' first' (filter (fun x => negb (x =? e)) l) /\
    (forall y, ~ In y l -> nx h' y = nx h y /\ pv h' y = pv h y).
Proof.
  intros. destruct (cdbl_del_ok dbg fuel h first l e) as (h' & f' & A & B & D & _); try assumption. eauto 6.
Qed.
Print Assumptions C43_cdbl_delete.
Definition ex3 : heap := match run false 9 (fresh_heap, 0) [Add 16; Add 32; Add 48] with Ok (h, _) => h | _ => fresh_heap end.
Example C43_cdbl_delete_nonvacuous : cdbl ex3 16 [16; 32; 48] /\ In 32 [16; 32; 48] /\
  match cdbl_del false 3 ex3 16 32 with Ok (h, f) => Some (f, nx h 16, pv h 48) | _ => None end = Some (16, 48, 16).
Proof.
  split; [|split; [cbn; auto|vm_compute; reflexivity]]. split; [|split].
  - repeat constructor; cbn; lia.
  - cbn. lia.
  - vm_compute. auto 10.
Qed.

(* The circular singly linked list: any sequence of additions of different nodes
   gives them in the order of addition; the handle is the node added last. *)
Fixpoint add_all (dbg : bool) (s : heap * Z) (xs : list Z) : outcome (heap * Z) :=
  match xs with [] => Ok s | x :: xs => s <- csngl_add_rear dbg (fst s) (snd s) x ;; add_all dbg s xs end.
Lemma add_all_ok : forall dbg xs h first l, csngl h first l -> NoDup (l ++ xs) -> ~ In 0 xs ->
  (dbg = true -> forall x, In x xs -> nx h x = 0) ->
  exists h' first', add_all dbg (h, first) xs = Ok (h', first') /\ csngl h' first' (l ++ xs) /\
    (forall y, ~ In y (l ++ xs) -> nx h' y = nx h y).
Proof.
  induction xs as [|x xs IH]; intros h first l C ND NZ UL; cbn [add_all].
  - rewrite app_nil_r in *. eexists. eexists. split; [reflexivity|]. auto.
  - cbn [fst snd]. assert (NI : ~ In x (l ++ xs)) by (apply NoDup_remove_2; exact ND). rewrite in_app_iff in NI.
    destruct (csngl_add_ok dbg h first l x C) as (h1 & -> & C1 & FR).
    { intros ->. apply NZ. left. reflexivity. } { tauto. } { intros D. apply UL; [exact D|left; reflexivity]. }
    cbn [obind]. replace (l ++ x :: xs) with ((l ++ [x]) ++ xs) in * by (rewrite <- app_assoc; reflexivity).
    destruct (IH h1 x (l ++ [x]) C1 ND) as (h' & f' & E & C' & FR').
    { intros I. apply NZ. right. exact I. }
    { intros D y Y. rewrite FR; [apply UL; [exact D|right; exact Y]|intros ->; tauto|].
      intros I. rewrite <- app_assoc in ND. cbn [app] in ND.
      apply in_split in Y. destruct Y as (u & v & ->). 
      change (l ++ x :: u ++ y :: v) with (l ++ (x :: u) ++ y :: v) in ND. rewrite app_assoc in ND. apply NoDup_remove_2 in ND.
      apply ND. rewrite !in_app_iff. tauto. }
    exists h', f'. split; [exact E|]. split; [exact C'|]. intros y Y. rewrite FR' by exact Y. rewrite !in_app_iff in Y. cbn in Y.
    apply FR; [intros ->; tauto|tauto].
Qed.
Theorem C43_csngl_history : forall dbg xs, NoDup xs -> ~ In 0 xs ->
  exists h first, add_all dbg (fresh_heap, 0) xs = Ok (h, first) /\ csngl h first xs /\
    (forall y, ~ In y xs -> nx h y = 0).
Proof.
  intros dbg xs ND NZ. destruct (add_all_ok dbg xs fresh_heap 0 []) as (h & f & E & C & FR); auto.
  - split; [constructor|]. split; [intros []|left; auto].
  - exists h, f. auto.
Qed.
Print Assumptions C43_csngl_history.
Example C43_csngl_history_nonvacuous : NoDup [8; 16; 24] /\ ~ In 0 [8; 16; 24] /\
  match add_all true (fresh_heap, 0) [8; 16; 24] with Ok (h, f) => Some (f, nx h 24, nx h 8, nx h 16) | _ => None end = Some (24, 8, 16, 24).
Proof. split; [repeat constructor; cbn; lia|]. split; [cbn; lia|vm_compute; reflexivity]. Qed.

(* Pushing on the front. *)
Fixpoint push_all (dbg : bool) (s : heap * Z) (xs : list Z) : outcome (heap * Z) :=
  match xs with [] => Ok s | x :: xs => s <- sngl_push dbg (fst s) (snd s) x ;; push_all dbg s xs end.
Lemma push_all_ok : forall dbg xs h first l, sngl h first l -> NoDup (l ++ xs) -> ~ In 0 xs ->
  (dbg = true -> forall x, In x xs -> nx h x = 0) ->
  exists h' first', push_all dbg (h, first) xs = Ok (h', first') /\ sngl h' first' (rev xs ++ l) /\
    (forall y, ~ In y xs -> nx h' y = nx h y).
Proof.
  induction xs as [|x xs IH]; intros h first l C ND NZ UL; cbn [push_all].
  - eexists. eexists. split; [reflexivity|]. auto.
  - cbn [fst snd]. assert (NI : ~ In x (l ++ xs)) by (apply NoDup_remove_2; exact ND). rewrite in_app_iff in NI.
    destruct (sngl_push_ok dbg h first l x C) as (h1 & -> & C1 & FR).
    { intros ->. apply NZ. left. reflexivity. } { tauto. } { intros D. apply UL; [exact D|left; reflexivity]. }
    cbn [obind]. destruct (IH h1 x (x :: l) C1) as (h' & f' & E & C' & FR').
    { cbn [app]. constructor; [rewrite in_app_iff; exact NI|]. apply NoDup_remove_1 in ND. exact ND. }
    { intros I. apply NZ. right. exact I. }
    { intros D y Y. rewrite FR; [apply UL; [exact D|right; exact Y]|intros ->; tauto]. }
    exists h', f'. split; [exact E|]. cbn [rev]. rewrite <- app_assoc. split; [exact C'|].
    intros y Y. cbn in Y. rewrite FR' by tauto. apply FR. intros ->. tauto.
Qed.
Theorem C43_sngl_history : forall dbg xs, NoDup xs -> ~ In 0 xs ->
  exists h first, push_all dbg (fresh_heap, 0) xs = Ok (h, first) /\ sngl h first (rev xs) /\
    (forall y, ~ In y xs -> nx h y = 0).
Proof.
  intros dbg xs ND NZ. destruct (push_all_ok dbg xs fresh_heap 0 []) as (h & f & E & C & FR); auto.
  - split; [constructor|]. split; [intros []|reflexivity].
  - rewrite app_nil_r in C. exists h, f. auto.
Qed.
Print Assumptions C43_sngl_history.
Example C43_sngl_history_nonvacuous : NoDup [8; 16; 24] /\ ~ In 0 [8; 16; 24] /\
  match push_all true (fresh_heap, 0) [8; 16; 24] with Ok (h, f) => Some (f, nx h 24, nx h 16, nx h 8) | _ => None end = Some (24, 16, 8, 0).
Proof. split; [repeat constructor; cbn; lia|]. split; [cbn; lia|vm_compute; reflexivity]. Qed.

(* CDBL_LIST_DEL announces a check that the element is on the list, but the check
   passes for every element other than the first one: deleting a node of another
   list goes through, also with assertions on. *)
Theorem C43_delete_check_refuted : exists h first l e fuel, cdbl h first l /\ e <> 0 /\ ~ In e l /\
  match cdbl_del true fuel h first e with Ok _ => True | _ => False end.
Proof.
  exists (Heap (fun x => x) (fun x => x)), 16, [16], 32, 5%nat. split; [|split; [lia|split; [cbn; lia|vm_compute; exact I]]].
  split; [repeat constructor; cbn; lia|]. split; [cbn; lia|]. cbn. auto.
Qed.
Print Assumptions C43_delete_check_refuted.
