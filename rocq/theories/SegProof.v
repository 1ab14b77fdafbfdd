(* Proofs about the segment table (C38). *)
From Verif Require Import Base SegModel.

(* ------------------------------------------------------------------ *)
(* Rounding *)
Lemma land_neg_pow2 : forall s k, 0 <= s < two64 -> 0 <= k < 64 -> Z.land s (u64 (- 2 ^ k)) = s - s mod 2 ^ k.
Proof.
  intros s k S K. unfold u64. change two64 with (2 ^ 64) in *. rewrite <- Z.land_ones by lia.
  replace (- 2 ^ k) with (Z.lnot (Z.ones k)) by (rewrite Z.ones_equiv; unfold Z.lnot; lia).
  rewrite (Z.land_comm (Z.lnot _)), Z.land_assoc, Z.land_ones by lia. rewrite Z.mod_small by lia.
  rewrite <- Z.ldiff_land, Z.ldiff_ones_r by lia. rewrite Z.shiftl_mul_pow2, Z.shiftr_div_pow2 by lia.
  pose proof (Z.div_mod s (2 ^ k) ltac:(pose proof (Z.pow_pos_nonneg 2 k); lia)). lia.
Qed.

(* ------------------------------------------------------------------ *)
(* Tables as lists *)
Fixpoint find (t : list entry) (a acc : Z) : Z :=
  match t with [] => acc | x :: t => if e_addr x <=? a then find t a (e_ndx x) else acc end.
Fixpoint chain (rel : entry -> entry -> Prop) (p : entry) (t : list entry) : Prop :=
  match t with [] => True | x :: t => rel p x /\ chain rel x t end.

Lemma chain_app : forall rel l1 p l2, chain rel p (l1 ++ l2) <-> chain rel p l1 /\ chain rel (last l1 p) l2.
Proof.
  intros rel. induction l1 as [|x l1 IH]; intros p l2; cbn [app chain].
  - cbn [last]. tauto.
  - rewrite IH. destruct l1 as [|y l1]; [cbn [last chain]; tauto|].
    replace (last (x :: y :: l1) p) with (last (y :: l1) x) by (cbn [last]; clear; revert y; induction l1 as [|z l1 IH]; intros y; [reflexivity|apply IH]).
    tauto.
Qed.
Lemma chain_impl : forall (r1 r2 : entry -> entry -> Prop) t p, (forall x y, r1 x y -> r2 x y) -> chain r1 p t -> chain r2 p t.
Proof. intros r1 r2. induction t as [|x t IH]; intros p H C; [exact I|]. destruct C as [C1 C2]. split; [apply H, C1|apply IH; assumption]. Qed.
Lemma last_snoc : forall A (l : list A) x d, last (l ++ [x]) d = x.
Proof. intros A l x d. induction l as [|y l IH]; [reflexivity|]. cbn [app]. rewrite <- IH at 2. destruct l; reflexivity. Qed.

Definition le_addr (x y : entry) : Prop := e_addr x <= e_addr y.
Lemma chain_head : forall t p x, chain le_addr p t -> In x t -> e_addr p <= e_addr x.
Proof.
  induction t as [|y t IH]; intros p x C I; [contradiction|]. destruct C as [C1 C2]. unfold le_addr in C1. destruct I as [->|I]; [exact C1|].
  pose proof (IH _ _ C2 I). lia.
Qed.

Lemma find_app_gt : forall l1 l2 a acc, (forall x, In x l2 -> a < e_addr x) -> find (l1 ++ l2) a acc = find l1 a acc.
Proof.
  induction l1 as [|x l1 IH]; intros l2 a acc H; cbn [app find].
  - destruct l2 as [|y l2]; [reflexivity|]. cbn [find]. pose proof (H y (or_introl eq_refl)). replace (e_addr y <=? a) with false by lia. reflexivity.
  - destruct (e_addr x <=? a); [apply IH, H|reflexivity].
Qed.
Lemma find_app_le : forall l1 l2 a acc, (forall x, In x l1 -> e_addr x <= a) -> find (l1 ++ l2) a acc = find l2 a (find l1 a acc).
Proof.
  induction l1 as [|x l1 IH]; intros l2 a acc H; cbn [app find]; [reflexivity|].
  pose proof (H x (or_introl eq_refl)). replace (e_addr x <=? a) with true by lia. apply IH. intros y I. apply H. right. exact I.
Qed.
Lemma find_le : forall l a b acc, (forall x, In x l -> e_addr x <= a) -> (forall x, In x l -> e_addr x <= b) -> find l a acc = find l b acc.
Proof.
  induction l as [|x l IH]; intros a b acc A B; cbn [find]; [reflexivity|].
  pose proof (A x (or_introl eq_refl)). pose proof (B x (or_introl eq_refl)). replace (e_addr x <=? a) with true by lia. replace (e_addr x <=? b) with true by lia.
  apply IH; intros y I; [apply A|apply B]; right; exact I.
Qed.

Lemma znth_cons : forall A (x : A) l i, znth (x :: l) i = if i =? 0 then Some x else znth l (i - 1).
Proof.
  intros A x l i. unfold znth. rewrite zlen_cons. destruct (Z.eqb_spec i 0) as [->|N].
  - pose proof (zlen_nonneg _ l). replace ((0 <=? 0) && (0 <? 1 + zlen l)) with true by lia. reflexivity.
  - destruct ((0 <=? i) && (i <? 1 + zlen l)) eqn:E.
    + replace ((0 <=? i - 1) && (i - 1 <? zlen l)) with true by lia. replace (Z.to_nat i) with (S (Z.to_nat (i - 1))) by lia. reflexivity.
    + replace ((0 <=? i - 1) && (i - 1 <? zlen l)) with false by lia. reflexivity.
Qed.
Lemma znth_some : forall A (l : list A) i, 0 <= i < zlen l -> exists x, znth l i = Some x.
Proof.
  intros A l i I. unfold znth. replace ((0 <=? i) && (i <? zlen l)) with true by lia.
  destruct (nth_error l (Z.to_nat i)) eqn:E; [eexists; reflexivity|]. apply nth_error_None in E. unfold zlen in I. lia.
Qed.
Lemma znth_in : forall A (l : list A) i x, znth l i = Some x -> In x l /\ 0 <= i < zlen l.
Proof.
  intros A l i x H. unfold znth in H. destruct ((0 <=? i) && (i <? zlen l)) eqn:E; [|discriminate]. split; [eapply nth_error_In, H|lia].
Qed.

Lemma chain_le : forall t p i j x y, chain le_addr p t -> znth t i = Some x -> znth t j = Some y -> i <= j -> e_addr x <= e_addr y.
Proof.
  induction t as [|z t IH]; intros p i j x y C X Y IJ.
  - apply znth_in in X as [[] _].
  - destruct C as [C1 C2]. rewrite znth_cons in X, Y. destruct (Z.eqb_spec i 0) as [->|NI].
    + injection X as ->. destruct (Z.eqb_spec j 0); [injection Y as ->; lia|]. apply znth_in in Y as [Y _]. eapply chain_head; [exact C2|exact Y].
    + destruct (Z.eqb_spec j 0) as [->|NJ]; [apply znth_in in X; lia|]. eapply IH; [exact C2|exact X|exact Y|lia].
Qed.

(* What lookup returns *)
Definition found (t : list entry) (a idx : Z) : Prop :=
  (idx = -1 /\ forall x, In x t -> a < e_addr x) \/
  (exists x, znth t idx = Some x /\ e_addr x <= a /\ forall j y, znth t j = Some y -> idx < j -> a < e_addr y).

Lemma search_found : forall t p a, chain le_addr p t -> forall k l u, 0 <= l <= u -> u <= zlen t -> u - l < Z.of_nat k ->
  (forall i x, u <= i -> znth t i = Some x -> a < e_addr x) -> (l = 0 \/ exists x, znth t (l - 1) = Some x /\ e_addr x <= a /\ exists y, znth t l = Some y /\ e_addr y <= a) ->
  exists idx, search k t a l u = Ok idx /\ found t a idx.
Proof.
  intros t p a C. induction k as [|k IH]; intros l u LU UZ K A B; [lia|]. cbn [search].
  destruct (Z.ltb_spec l u) as [LT|GE]; cbn [negb].
  2:{ exists (-1). split; [reflexivity|]. left. split; [reflexivity|]. destruct B as [->|(x & X & Y & y & Z1 & Z2)].
      - intros x I. apply In_nth_error in I as [n I]. assert ((n < length t)%nat) by (apply nth_error_Some; congruence).
        apply (A (Z.of_nat n)); [lia|]. unfold znth, zlen. replace ((0 <=? Z.of_nat n) && (Z.of_nat n <? Z.of_nat (length t))) with true by lia. rewrite Nat2Z.id. exact I.
      - pose proof (A l y ltac:(lia) Z1). lia. }
  set (idx := (l + u) / 2). assert (IX : l <= idx < u) by (unfold idx; pose proof (Z.div_mod (l + u) 2); pose proof (Z.mod_pos_bound (l + u) 2); lia).
  destruct (znth_some _ t idx ltac:(lia)) as [x X]. rewrite X. destruct (Z.ltb_spec a (e_addr x)) as [AL|AG].
  - apply IH; [lia|lia|lia| |exact B]. intros i y I Y. pose proof (chain_le t p idx i x y C X Y ltac:(lia)). lia.
  - destruct (Z.eqb_spec (idx + 1) (zlen t)) as [EE|NE].
    + exists idx. split; [reflexivity|]. right. exists x. split; [exact X|]. split; [exact AG|]. intros j y Y J. apply znth_in in Y. lia.
    + destruct (znth_some _ t (idx + 1) ltac:(lia)) as [y Y]. rewrite Y. destruct (Z.ltb_spec a (e_addr y)) as [BL|BG].
      * exists idx. split; [reflexivity|]. right. exists x. split; [exact X|]. split; [exact AG|]. intros j z Z0 J.
        pose proof (chain_le t p (idx + 1) j y z C Y Z0 ltac:(lia)). lia.
      * apply IH; [lia|lia|lia|exact A|]. right. exists x. replace (idx + 1 - 1) with idx by lia. split; [exact X|]. split; [exact AG|]. exists y. split; [exact Y|lia].
Qed.

Lemma lookup_found : forall t p a hint, chain le_addr p t -> hint < zlen t -> exists idx, lookup t a hint = Ok idx /\ found t a idx.
Proof.
  intros t p a hint C H. unfold lookup. pose proof (zlen_nonneg _ t).
  assert (F : exists idx, search (S (length t)) t a 0 (zlen t) = Ok idx /\ found t a idx).
  { eapply search_found; [exact C|lia|lia|unfold zlen; lia| |left; reflexivity]. intros i x I X. apply znth_in in X. lia. }
  destruct (Z.ltb_spec hint 0) as [HN|HP]; [exact F|].
  destruct (znth_some _ t hint ltac:(lia)) as [x X]. rewrite X. destruct (Z.leb_spec (e_addr x) a) as [L|G]; [|exact F].
  destruct (Z.eqb_spec (hint + 1) (zlen t)) as [EE|NE].
  - exists hint. split; [reflexivity|]. right. exists x. split; [exact X|]. split; [exact L|]. intros j y Y J. apply znth_in in Y. lia.
  - destruct (znth_some _ t (hint + 1) ltac:(lia)) as [y Y]. rewrite Y. destruct (Z.ltb_spec a (e_addr y)) as [BL|BG]; [|exact F].
    exists hint. split; [reflexivity|]. right. exists x. split; [exact X|]. split; [exact L|]. intros j z Z0 J.
    pose proof (chain_le t p (hint + 1) j y z C Y Z0 ltac:(lia)). lia.
Qed.

Lemma found_split : forall t p a idx, chain le_addr p t -> found t a idx -> 0 <= idx ->
  exists l1 x l2, t = l1 ++ x :: l2 /\ zlen l1 = idx /\ znth t idx = Some x /\ (forall y, In y (l1 ++ [x]) -> e_addr y <= a) /\ forall y, In y l2 -> a < e_addr y.
Proof.
  intros t p a idx C [[-> _]|(x & X & L & G)] I0; [lia|].
  pose proof (znth_in _ _ _ _ X) as [_ IX]. unfold znth in X. replace ((0 <=? idx) && (idx <? zlen t)) with true in X by lia.
  destruct (nth_error_split t (Z.to_nat idx) X) as (l1 & l2 & E & LE). exists l1, x, l2. split; [exact E|].
  assert (L1 : zlen l1 = idx) by (unfold zlen; lia). split; [exact L1|].
  assert (ZX : znth t idx = Some x) by (unfold znth; replace ((0 <=? idx) && (idx <? zlen t)) with true by lia; exact X).
  split; [exact ZX|]. split.
  - intros y I. apply In_nth_error in I as [n I]. assert (N : (n < length (l1 ++ [x]))%nat) by (apply nth_error_Some; congruence). rewrite app_length in N. cbn [length] in N.
    assert (ZY : znth t (Z.of_nat n) = Some y).
    { unfold znth. replace ((0 <=? Z.of_nat n) && (Z.of_nat n <? zlen t)) with true by (unfold zlen in *; lia). rewrite Nat2Z.id, E.
      replace (l1 ++ x :: l2) with ((l1 ++ [x]) ++ l2) by (rewrite <- app_assoc; reflexivity). rewrite nth_error_app1 by (rewrite app_length; cbn [length]; lia). exact I. }
    pose proof (chain_le t p (Z.of_nat n) idx y x C ZY ZX ltac:(unfold zlen in *; lia)). lia.
  - intros y I. apply In_nth_error in I as [n I]. apply (G (idx + 1 + Z.of_nat n)); [|lia].
    assert (N : (n < length l2)%nat) by (apply nth_error_Some; congruence).
    assert (ZT : zlen t = idx + 1 + zlen l2) by (rewrite E, zlen_app, zlen_cons; lia).
    unfold znth. replace ((0 <=? idx + 1 + Z.of_nat n) && (idx + 1 + Z.of_nat n <? zlen t)) with true by (unfold zlen in *; lia).
    replace (Z.to_nat (idx + 1 + Z.of_nat n)) with (length l1 + S n)%nat by lia. rewrite E, nth_error_app2 by lia. replace (length l1 + S n - length l1)%nat with (S n) by lia. exact I.
Qed.

Lemma addrsegment_find : forall d p a, chain le_addr p (d_tbl d) -> addrsegment d a = Ok (find (d_tbl d) a (-1)).
Proof.
  intros d p a C. unfold addrsegment. destruct (lookup_found (d_tbl d) p a (-1) C) as (idx & -> & F); [pose proof (zlen_nonneg _ (d_tbl d)); lia|]. cbn [obind].
  destruct (Z.leb_spec 0 idx) as [P|N].
  - destruct (found_split _ _ _ _ C F P) as (l1 & x & l2 & E & L1 & ZX & A1 & A2). rewrite ZX, E.
    replace (l1 ++ x :: l2) with ((l1 ++ [x]) ++ l2) by (rewrite <- app_assoc; reflexivity). rewrite find_app_gt by exact A2. f_equal.
    rewrite find_app_le by (intros y I; apply A1, in_app_iff; left; exact I). cbn [find].
    replace (e_addr x <=? a) with true; [reflexivity|]. pose proof (A1 x ltac:(apply in_app_iff; right; left; reflexivity)). lia.
  - destruct F as [[-> A]|(x & X & _)]; [|apply znth_in in X; lia]. f_equal. destruct (d_tbl d) as [|y t]; [reflexivity|]. cbn [find].
    pose proof (A y (or_introl eq_refl)). replace (e_addr y <=? a) with false by lia. reflexivity.
Qed.

(* ------------------------------------------------------------------ *)
(* place *)
Lemma last_in : forall A (l : list A) d, l <> [] -> In (last l d) l.
Proof. intros A. induction l as [|x l IH]; intros d N; [congruence|]. destruct l as [|y l]; [left; reflexivity|]. right. change (last (x :: y :: l) d) with (last (y :: l) d). apply IH. discriminate. Qed.

Lemma place_spec : forall t p s, chain le_addr p t ->
  exists pre post, t = pre ++ post /\ place (length t) t (zlen t) s = zlen pre /\ (forall x, In x pre -> e_addr x <= s) /\ (forall x, In x post -> s < e_addr x).
Proof.
  intros t p s C.
  assert (G : forall k i, (i = Z.of_nat k) -> i <= zlen t -> (forall j x, i <= j -> znth t j = Some x -> s < e_addr x) ->
    exists q, place k t i s = q /\ 0 <= q <= zlen t /\ (forall j x, q <= j -> znth t j = Some x -> s < e_addr x) /\ (q = 0 \/ exists x, znth t (q - 1) = Some x /\ e_addr x <= s)).
  { induction k as [|k IH]; intros i I L A; cbn [place].
    - exists i. split; [reflexivity|]. split; [lia|]. split; [exact A|]. left. lia.
    - replace (i <=? 0) with false by lia. destruct (znth_some _ t (i - 1) ltac:(lia)) as [x X]. rewrite X. destruct (Z.ltb_spec s (e_addr x)) as [SL|SG].
      + apply IH; [lia|lia|]. intros j y J Y. pose proof (chain_le t p (i - 1) j x y C X Y J). lia.
      + exists i. split; [reflexivity|]. split; [lia|]. split; [exact A|]. right. exists x. split; [exact X|lia]. }
  destruct (G (length t) (zlen t) eq_refl ltac:(lia)) as (q & Q & QB & QA & QP).
  { intros j x J X. apply znth_in in X. lia. }
  exists (firstn (Z.to_nat q) t), (skipn (Z.to_nat q) t). split; [symmetry; apply firstn_skipn|]. split.
  { rewrite Q. unfold zlen. rewrite firstn_length. unfold zlen in QB. lia. }
  split.
  - intros x I. apply In_nth_error in I as [n I]. assert (N : (n < length (firstn (Z.to_nat q) t))%nat) by (apply nth_error_Some; congruence). rewrite firstn_length in N.
    assert (ZX : znth t (Z.of_nat n) = Some x).
    { unfold znth. replace ((0 <=? Z.of_nat n) && (Z.of_nat n <? zlen t)) with true by (unfold zlen in *; lia). rewrite Nat2Z.id.
      rewrite <- (firstn_skipn (Z.to_nat q) t), nth_error_app1 by (rewrite firstn_length; lia). exact I. }
    destruct QP as [->|(y & Y & L)]; [lia|]. pose proof (chain_le t p _ _ x y C ZX Y ltac:(lia)). lia.
  - intros x I. apply In_nth_error in I as [n I]. assert (N : (n < length (skipn (Z.to_nat q) t))%nat) by (apply nth_error_Some; congruence). rewrite skipn_length in N.
    apply (QA (q + Z.of_nat n)); [lia|]. unfold znth. replace ((0 <=? q + Z.of_nat n) && (q + Z.of_nat n <? zlen t)) with true by (unfold zlen in *; lia).
    rewrite <- (firstn_skipn (Z.to_nat q) t). rewrite nth_error_app2 by (rewrite firstn_length; unfold zlen in *; lia).
    rewrite firstn_length. replace (Z.to_nat (q + Z.of_nat n) - Nat.min (Z.to_nat q) (length t))%nat with n by (unfold zlen in *; lia). exact I.
Qed.

(* ------------------------------------------------------------------ *)
(* insert, as list surgery *)
Definition cap_ok (d : dwfl) : Prop := (d_alloc d = 0 /\ d_tbl d = []) \/ (16 <= d_alloc d /\ zlen (d_tbl d) <= d_alloc d).

Lemma ins_at_app : forall A (pre post x : list A), ins_at (pre ++ post) (zlen pre) x = pre ++ x ++ post.
Proof.
  intros A pre post x. unfold ins_at, zlen. rewrite Nat2Z.id. rewrite firstn_app, firstn_all, Nat.sub_diag, skipn_app, skipn_all, Nat.sub_diag. cbn [firstn skipn]. rewrite app_nil_r. reflexivity.
Qed.
Lemma zset_app : forall A (l1 l2 : list A) x y, zset (l1 ++ x :: l2) (zlen l1) y = l1 ++ y :: l2.
Proof.
  intros A l1 l2 x y. pose proof (zlen_nonneg _ l1). unfold zset. rewrite zlen_app, zlen_cons. pose proof (zlen_nonneg _ l2).
  replace ((0 <=? zlen l1) && (zlen l1 <? zlen l1 + (1 + zlen l2))) with true by lia.
  unfold zlen. rewrite Nat2Z.id. rewrite firstn_app, firstn_all, Nat.sub_diag. cbn [firstn]. rewrite app_nil_r. f_equal. f_equal.
  replace (S (length l1)) with (length l1 + 1)%nat by lia. rewrite skipn_app. rewrite skipn_all2 by lia. replace (length l1 + 1 - length l1)%nat with 1%nat by lia. reflexivity.
Qed.
Lemma znth_snoc : forall A (l1 l2 : list A) x, znth (l1 ++ x :: l2) (zlen l1) = Some x.
Proof. intros A l1 l2 x. rewrite znth_app_r by lia. rewrite Z.sub_diag. rewrite znth_cons. reflexivity. Qed.

Definition tail_end (post : list entry) (e : Z) : list entry :=
  if match post with _ :: y :: _ => e_addr y =? e | _ => false end then [] else [E e (-1) None].

Lemma insert_new : forall d pre post s e ndx, d_tbl d = pre ++ post -> cap_ok d -> (pre = [] \/ exists l x, pre = l ++ [x] /\ e_addr x <> s) ->
  exists d', insert d (zlen pre) s e ndx = Ok d' /\ d' = set_tbl d (pre ++ [E s ndx None] ++ tail_end post e ++ post) (d_alloc d') /\ cap_ok d'.
Proof.
  intros d pre post s e ndx T CAP H. unfold insert. rewrite T.
  assert (NS : (zlen pre =? 0) || negb match znth (pre ++ post) (zlen pre - 1) with Some x => e_addr x =? s | None => false end = true).
  { destruct H as [->|(l & x & -> & N)]; [reflexivity|]. rewrite zlen_app. change (zlen [x]) with 1. replace (zlen l + 1 - 1) with (zlen l) by lia.
    rewrite <- app_assoc. cbn [app]. rewrite znth_snoc. replace (e_addr x =? s) with false by lia. apply orb_true_r. }
  rewrite NS. assert (NE : (if (zlen (pre ++ post) <=? zlen pre + 1) || negb match znth (pre ++ post) (zlen pre + 1) with Some x => e_addr x =? e | None => false end then [E e (-1) None] else []) = tail_end post e
     /\ (if (zlen (pre ++ post) <=? zlen pre + 1) || negb match znth (pre ++ post) (zlen pre + 1) with Some x => e_addr x =? e | None => false end then 1 else 0) = zlen (tail_end post e)).
  { rewrite zlen_app, znth_app_r by lia. replace (zlen pre + 1 - zlen pre) with 1 by lia. unfold tail_end. destruct post as [|a [|b post]].
    - change (zlen (@nil entry)) with 0. replace (zlen pre + 0 <=? zlen pre + 1) with true by lia. split; reflexivity.
    - change (zlen [a]) with 1. replace (zlen pre + 1 <=? zlen pre + 1) with true by lia. split; reflexivity.
    - rewrite !zlen_cons. pose proof (zlen_nonneg _ post). replace (zlen pre + (1 + (1 + zlen post)) <=? zlen pre + 1) with false by lia.
      rewrite znth_cons. cbn [Z.eqb]. change (1 - 1) with 0. rewrite znth_cons. cbn [Z.eqb orb]. destruct (e_addr b =? e); split; reflexivity. }
  destruct NE as [-> ->]. set (te := tail_end post e). assert (TE : zlen te = 0 \/ zlen te = 1) by (unfold te, tail_end; destruct post as [|a [|b post]]; [right|right|destruct (e_addr b =? e); [left|right]]; reflexivity).
  replace (1 + zlen te =? 0) with false by lia.
  set (al := if d_alloc d - zlen (pre ++ post) <? 1 + zlen te then if d_alloc d =? 0 then 16 else d_alloc d * 2 else d_alloc d).
  assert (AL : 16 <= al /\ zlen (pre ++ post) + (1 + zlen te) <= al).
  { unfold al. destruct CAP as [[-> C2]|[C1 C2]].
    - rewrite T in C2. rewrite C2. change (zlen (@nil entry)) with 0. replace (0 - 0 <? 1 + zlen te) with true by lia. cbn [Z.eqb]. lia.
    - rewrite T in C2. destruct (d_alloc d - zlen (pre ++ post) <? 1 + zlen te) eqn:E1; [|lia]. replace (d_alloc d =? 0) with false by lia. lia. }
  replace (al <? zlen (pre ++ post) + (1 + zlen te)) with false by lia. eexists. split; [reflexivity|]. rewrite ins_at_app.
  split; [rewrite <- app_assoc; reflexivity|]. right. cbn [set_tbl d_alloc d_tbl].
  split; [lia|]. rewrite !zlen_app in *. change (zlen [E s ndx None]) with 1. lia.
Qed.

Lemma insert_old : forall d l x post s e ndx, d_tbl d = (l ++ [x]) ++ post -> cap_ok d -> e_addr x = s -> tail_end post e <> [] ->
  exists d', insert d (zlen (l ++ [x])) s e ndx = Ok d' /\ d' = set_tbl d ((l ++ [set_ndx x ndx]) ++ tail_end post e ++ post) (d_alloc d') /\ cap_ok d'.
Proof.
  intros d l x post s e ndx T CAP XS TN. unfold insert. rewrite T. set (pre := l ++ [x]).
  assert (ZP : zlen pre = zlen l + 1) by (unfold pre; rewrite zlen_app; reflexivity). pose proof (zlen_nonneg _ l).
  assert (NS : (zlen pre =? 0) || negb match znth (pre ++ post) (zlen pre - 1) with Some x => e_addr x =? s | None => false end = false).
  { rewrite ZP. replace (zlen l + 1 - 1) with (zlen l) by lia. unfold pre. rewrite <- app_assoc. cbn [app]. rewrite znth_snoc. replace (e_addr x =? s) with true by lia. lia. }
  rewrite NS. assert (NE : (if (zlen (pre ++ post) <=? zlen pre + 1) || negb match znth (pre ++ post) (zlen pre + 1) with Some x => e_addr x =? e | None => false end then [E e (-1) None] else []) = tail_end post e
     /\ (if (zlen (pre ++ post) <=? zlen pre + 1) || negb match znth (pre ++ post) (zlen pre + 1) with Some x => e_addr x =? e | None => false end then 1 else 0) = zlen (tail_end post e)).
  { rewrite zlen_app, znth_app_r by lia. replace (zlen pre + 1 - zlen pre) with 1 by lia. unfold tail_end. destruct post as [|a [|b post]].
    - change (zlen (@nil entry)) with 0. replace (zlen pre + 0 <=? zlen pre + 1) with true by lia. split; reflexivity.
    - change (zlen [a]) with 1. replace (zlen pre + 1 <=? zlen pre + 1) with true by lia. split; reflexivity.
    - rewrite !zlen_cons. pose proof (zlen_nonneg _ post). replace (zlen pre + (1 + (1 + zlen post)) <=? zlen pre + 1) with false by lia.
      rewrite znth_cons. cbn [Z.eqb]. change (1 - 1) with 0. rewrite znth_cons. cbn [Z.eqb orb]. destruct (e_addr b =? e); split; reflexivity. }
  destruct NE as [-> ->]. 
  assert (TE : tail_end post e = [E e (-1) None]) by (revert TN; unfold tail_end; destruct (match post with _ :: y :: _ => e_addr y =? e | _ => false end); [congruence|reflexivity]).
  rewrite TE. change (zlen [E e (-1) None]) with 1. cbn [Z.eqb Z.add Pos.add].
  set (al := if d_alloc d - zlen (pre ++ post) <? 1 then if d_alloc d =? 0 then 16 else d_alloc d * 2 else d_alloc d).
  assert (AL : 16 <= al /\ zlen (pre ++ post) + 1 <= al).
  { unfold al. destruct CAP as [[-> C2]|[C1 C2]].
    - rewrite T in C2. fold pre in C2. rewrite C2. change (zlen (@nil entry)) with 0. cbn. lia.
    - rewrite T in C2. fold pre in C2. destruct (d_alloc d - zlen (pre ++ post) <? 1) eqn:E1; [|lia]. replace (d_alloc d =? 0) with false by lia. lia. }
  replace (al <? zlen (pre ++ post) + 1) with false by lia. rewrite ins_at_app.
  assert (Q : match znth (pre ++ ([] ++ [E e (-1) None]) ++ post) (zlen pre - 1) with
     | Some x0 => zset (pre ++ ([] ++ [E e (-1) None]) ++ post) (zlen pre - 1) (set_ndx x0 ndx)
     | None => pre ++ ([] ++ [E e (-1) None]) ++ post end = (l ++ [set_ndx x ndx]) ++ [E e (-1) None] ++ post).
  { rewrite ZP. replace (zlen l + 1 - 1) with (zlen l) by lia. unfold pre. rewrite <- !app_assoc. cbn [app]. rewrite znth_snoc, zset_app. reflexivity. }
  rewrite Q. eexists. split; [reflexivity|]. split; [reflexivity|]. right. cbn [set_tbl d_alloc d_tbl].
  split; [lia|]. rewrite !zlen_app in *. change (zlen [set_ndx x ndx]) with 1. change (zlen [E e (-1) None]) with 1. lia.
Qed.
