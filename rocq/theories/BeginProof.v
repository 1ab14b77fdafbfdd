(* Proofs about the choice of the debugging sections. *)
From Coq Require Import String.
From Verif Require Import Base BeginModel BeginSpec.
Open Scope Z_scope.
Open Scope list_scope.

Lemma beq_iff : forall a b, beq a b = true <-> a = b.
Proof. intros a b. unfold beq. destruct (list_eq_dec Z.eq_dec a b); split; congruence. Qed.
Lemma strstr_at : forall p s k, strstr s p = Some k -> firstn (length p) (skipn k s) = p.
Proof.
  intros p s. induction s as [|x s IH]; intros k H; cbn [strstr] in H.
  - destruct (beq (firstn (length p) []) p) eqn:B; [|discriminate]. injection H as <-. apply beq_iff in B. exact B.
  - destruct (beq (firstn (length p) (x :: s)) p) eqn:B.
    + injection H as <-. apply beq_iff in B. exact B.
    + destruct (strstr s p) as [j|]; [|discriminate]. injection H as <-. cbn [skipn]. apply IH. reflexivity.
Qed.

Lemma tail4 : forall (s : bytes) n, length s = (n + 4)%nat -> at_off (strstr s (bs ".dwo")) n = true -> skipn n s = bs ".dwo".
Proof.
  intros s n L A. unfold at_off in A. destruct (strstr s (bs ".dwo")) as [j|] eqn:E; [|discriminate]. apply Nat.eqb_eq in A. subst j.
  apply strstr_at in E. rewrite firstn_all2 in E; [exact E|]. rewrite skipn_length. cbn. lia.
Qed.

(* what matches has one of the four forms *)
Lemma one_name_forms : forall N s, (0 < length N)%nat -> one_name N s <> None -> In s (forms N).
Proof.
  intros N s L H. unfold one_name in H. unfold forms.
  destruct (strn s N (length N) && ((length N =? length s)%nat || ((length s =? length N + 4)%nat && at_off (strstr s (bs ".dwo")) (length N)))) eqn:A.
  - apply Bool.andb_true_iff in A. destruct A as (A1 & A2). unfold strn in A1. apply beq_iff in A1. rewrite (firstn_all N) in A1.
    apply Bool.orb_true_iff in A2. destruct A2 as [A2 | A2].
    + apply Nat.eqb_eq in A2. left. rewrite A2, firstn_all in A1. symmetry. exact A1.
    + apply Bool.andb_true_iff in A2. destruct A2 as (A2 & A3). apply Nat.eqb_eq in A2. right. left.
      rewrite <- (firstn_skipn (length N) s), A1, (tail4 s (length N) A2 A3). reflexivity.
  - destruct s as [|a [|b r]]; try (cbn in H; congruence); [destruct (Z.eq_dec a 46) as [-> | Na]; [|] |].
    all: match type of H with (if ?c then _ else _) <> _ => destruct c eqn:B; [|congruence] end.
    all: apply Bool.andb_true_iff in B; destruct B as (B1 & B2).
    + discriminate B1.
    + exfalso. revert B1. clear. destruct a as [|p|p]; try discriminate. repeat (destruct p as [p|p|]; try discriminate).
    + assert (E : a = 46 /\ b = 122 /\ strn r (tl N) (length N - 1) = true).
      { revert B1. clear. destruct a as [|p|p]; try discriminate. repeat (destruct p as [p|p|]; try discriminate).
        destruct b as [|q|q]; try discriminate. repeat (destruct q as [q|q|]; try discriminate). auto. }
      destruct E as (-> & -> & Sr). unfold strn in Sr. apply beq_iff in Sr.
      assert (Lt : length (tl N) = (length N - 1)%nat) by (destruct N; cbn; lia). rewrite <- Lt, firstn_all in Sr.
      apply Bool.orb_true_iff in B2. destruct B2 as [B2 | B2].
      * apply Nat.eqb_eq in B2. cbn [length] in B2. right. right. left. rewrite <- Sr. rewrite firstn_all2 by lia. reflexivity.
      * apply Bool.andb_true_iff in B2. destruct B2 as (B2 & B3). apply Nat.eqb_eq in B2.
        pose proof (tail4 (46 :: 122 :: r) (length N + 1) ltac:(lia) B3) as T. replace (length N + 1)%nat with (S (S (length (tl N)))) in T by lia. cbn [skipn] in T.
        right. right. right. left. assert (E : r = tl N ++ bs ".dwo") by (rewrite <- (firstn_skipn (length (tl N)) r), Sr, T; reflexivity). rewrite E. reflexivity.
Qed.

Definition inb (s : bytes) (l : list bytes) : bool := existsb (beq s) l.
Lemma inb_iff : forall s l, inb s l = true <-> In s l.
Proof. intros s l. unfold inb. rewrite existsb_exists. split; [intros (x & I & B); apply beq_iff in B; congruence | intros I; exists s; split; [exact I | apply beq_iff; reflexivity]]. Qed.

Lemma names_long : forall N, In N names -> (0 < length N)%nat.
Proof. intros N H. assert (X : forallb (fun N => (0 <? length N)%nat) names = true) by (vm_compute; reflexivity). rewrite forallb_forall in X. apply Nat.ltb_lt. exact (X N H). Qed.

(* by computing with all names in all forms: the name found is the only one *)
Lemma forms_found : forallb (fun p => forallb (fun s => match find_name names s 0 with Some i => (i =? fst p)%nat | None => false end) (forms (snd p)))
  (combine (seq 0 18) names) = true.
Proof. vm_compute. reflexivity. Qed.
Lemma combine_nth : forall (l : list bytes) st i N, nth_error l i = Some N -> In ((st + i)%nat, N) (combine (seq st (length l)) l).
Proof.
  induction l as [|x l IH]; intros st i N H; [destruct i; discriminate|]. cbn [length seq combine]. destruct i as [|i]; cbn in H.
  - injection H as ->. left. f_equal. lia.
  - right. replace (st + S i)%nat with (S st + i)%nat by lia. apply IH. exact H.
Qed.
Lemma find_forms : forall i N s, nth_error names i = Some N -> In s (forms N) -> find_name names s 0 = Some i.
Proof.
  intros i N s H I. pose proof (combine_nth names 0 i N H) as C. pose proof forms_found as F. rewrite forallb_forall in F. specialize (F _ C).
  rewrite forallb_forall in F. specialize (F s I). cbn [fst] in F. destruct (find_name names s 0) as [j|]; [|discriminate]. apply Nat.eqb_eq in F. f_equal. lia.
Qed.
Lemma find_some_name : forall l s st i, (forall N, In N l -> (0 < length N)%nat) -> find_name l s st = Some i -> exists N, nth_error l (i - st) = Some N /\ In s (forms N) /\ (st <= i)%nat.
Proof.
  induction l as [|N l IH]; intros s st i L H; [discriminate|]. cbn [find_name] in H. destruct (one_name N s) as [g|] eqn:O.
  - injection H as <-. exists N. rewrite Nat.sub_diag. split; [reflexivity|]. split; [|lia]. apply one_name_forms; [apply L; left; reflexivity | congruence].
  - destruct (IH s (S st) i (fun N I => L N (or_intror I)) H) as (M & M1 & M2 & M3). exists M. split; [|split; [exact M2 | lia]].
    replace (i - st)%nat with (S (i - S st)) by lia. exact M1.
Qed.
(* the name of a section is found as the one it is a form of *)
Lemma found : forall i N s, nth_error names i = Some N -> (find_name names s 0 = Some i <-> In s (forms N)).
Proof.
  intros i N s H. split; [|exact (find_forms i N s H)]. intros F. destruct (find_some_name names s 0 i names_long F) as (M & M1 & M2 & _).
  rewrite Nat.sub_0_r in M1. assert (X : Some M = Some N) by (etransitivity; [symmetry; exact M1 | exact H]). injection X as ->. exact M2.
Qed.

(* one section *)
Lemma check_ok : forall t k s g t', check_section t k s g = Some t' -> forall i N, nth_error names i = Some N ->
  match t i with
  | Some x => t' i = Some x
  | None => (exists b, counts g N s b /\ t' i = Some (k, b)) \/ ((forall b, ~ counts g N s b) /\ t' i = None)
  end.
Proof.
  intros t k s g t' H i N Hi. unfold check_section in H. destruct (d_shdr s); cbn [negb] in H; [|discriminate].
  assert (Same : t' = t -> (forall b, ~ counts g N s b) \/ t i <> None -> match t i with Some x => t' i = Some x | None => (exists b, counts g N s b /\ t' i = Some (k, b)) \/ ((forall b, ~ counts g N s b) /\ t' i = None) end).
  { intros -> [C | C]; destruct (t i) eqn:T; try reflexivity; [right; split; [exact C | reflexivity] | congruence]. }
  destruct (d_nobits s) eqn:NB; [injection H as <-; apply Same; [reflexivity | left; intros b (C & _); congruence]|].
  destruct (negb g && d_group s) eqn:G.
  { injection H as <-. apply Same; [reflexivity | left; intros b (_ & C & _)]. destruct g; [discriminate|]. rewrite (C eq_refl) in G. discriminate. }
  destruct (d_name s) as [nm|] eqn:Nm; [|discriminate].
  destruct (find_name names nm 0) as [j|] eqn:F.
  2:{ injection H as <-. apply Same; [reflexivity | left; intros b (_ & _ & (n & C1 & C2) & _)]. rewrite Nm in C1. injection C1 as <-. rewrite (find_forms i N nm Hi C2) in F. discriminate. }
  destruct (Nat.eq_dec j i) as [-> | Nj].
  - destruct (t i) as [x|] eqn:T; [injection H as <-; exact T|].
    destruct (d_comp s && negb (d_unz s)) eqn:Cm.
    { injection H as <-. right. split; [|exact T]. intros b (_ & _ & _ & C & _). apply Bool.andb_true_iff in Cm. destruct Cm as (C1 & C2). rewrite (C C1) in C2. discriminate. }
    destruct (d_data s) as [[|x b]|] eqn:D; [| |discriminate]; injection H as <-.
    + right. split; [|exact T]. intros b (_ & _ & _ & _ & C1 & C2). congruence.
    + left. exists (x :: b). split; [|unfold set_table; rewrite Nat.eqb_refl; reflexivity]. split; [exact NB|]. split; [intros ->; exact G|].
      split; [exists nm; split; [exact Nm | apply (found i N nm Hi); exact F]|]. split; [intros C; rewrite C in Cm; destruct (d_unz s); [reflexivity | discriminate]|]. split; [exact D | discriminate].
  - assert (Nc : forall b, ~ counts g N s b).
    { intros b (_ & _ & (n & C1 & C2) & _). rewrite Nm in C1. injection C1 as <-. rewrite (find_forms i N nm Hi C2) in F. congruence. }
    assert (Ti : t' i = t i).
    { destruct (t j); [injection H as <-; reflexivity|]. destruct (d_comp s && negb (d_unz s)); [injection H as <-; reflexivity|].
      destruct (d_data s) as [[|x b]|]; [injection H as <-; reflexivity | injection H as <- | discriminate]. unfold set_table. replace (i =? j)%nat with false by (symmetry; apply Nat.eqb_neq; congruence). reflexivity. }
    rewrite Ti. destruct (t i); [reflexivity | right; split; [exact Nc | reflexivity]].
Qed.

Lemma znth_S : forall (A : Type) (x : A) l k, 0 < k -> znth (x :: l) k = znth l (k - 1).
Proof.
  intros A x l k K. unfold znth. rewrite zlen_cons. replace ((0 <=? k) && (k <? 1 + zlen l)) with ((0 <=? k - 1) && (k - 1 <? zlen l)) by lia.
  destruct ((0 <=? k - 1) && (k - 1 <? zlen l)); [|reflexivity]. replace (Z.to_nat k) with (S (Z.to_nat (k - 1))) by lia. reflexivity.
Qed.
Lemma znth_0 : forall (A : Type) (x : A) l, znth (x :: l) 0 = Some x.
Proof. intros A x l. unfold znth. rewrite zlen_cons. pose proof (zlen_nonneg _ l). replace ((0 <=? 0) && (0 <? 1 + zlen l)) with true by lia. reflexivity. Qed.

Lemma each_ok : forall g l t k t', each t k l g = Some t' -> forall i N, nth_error names i = Some N ->
  match t i with
  | Some x => t' i = Some x
  | None => (exists j b, first_with g N l j b /\ t' i = Some (k - 1 + j, b)) \/ (none_with g N l /\ t' i = None)
  end.
Proof.
  intros g l. induction l as [|s l IH]; intros t k t' H i N Hi; cbn [each] in H.
  - injection H as <-. destruct (t i); [reflexivity|]. right. split; [intros s b []|reflexivity].
  - destruct (check_section t k s g) as [t1|] eqn:C; [|discriminate]. pose proof (check_ok t k s g t1 C i N Hi) as Ck. pose proof (IH t1 (k + 1) t' H i N Hi) as Ih.
    destruct (t i) as [x|]; [rewrite Ck in Ih; exact Ih|]. destruct Ck as [(b & Cb & T) | (Nc & T)]; rewrite T in Ih.
    + left. exists 1, b. split; [|rewrite Ih; f_equal; f_equal; lia]. exists s. split; [apply znth_0|]. split; [exact Cb|]. intros j s' b' J. lia.
    + destruct Ih as [(j & b & (s' & F1 & F2 & F3) & F4) | (Nn & F4)].
      * left. exists (j + 1), b. split; [|rewrite F4; f_equal; f_equal; lia].
        assert (J : 0 <= j - 1) by (unfold znth in F1; destruct (Z.leb_spec 0 (j - 1)); [assumption | discriminate]).
        exists s'. split; [rewrite znth_S by lia; rewrite <- F1; f_equal; lia|]. split; [exact F2|].
        intros q s2 b2 Q S2. destruct (Z.eq_dec q 1) as [-> | Nq]; [rewrite znth_0 in S2; injection S2 as <-; exact (Nc b2)|].
        rewrite znth_S in S2 by lia. apply (F3 (q - 1) s2 b2); [lia | rewrite <- S2; f_equal; lia].
      * right. split; [|exact F4]. intros s2 b2 [<- | I2]; [exact (Nc b2) | exact (Nn s2 b2 I2)].
Qed.

Lemma each_some : forall g l t k, (forall s, In s l -> d_shdr s = true /\ d_name s <> None /\ d_data s <> None) -> exists t', each t k l g = Some t'.
Proof.
  intros g l. induction l as [|s l IH]; intros t k H; cbn [each]; [exists t; reflexivity|].
  destruct (H s (or_introl eq_refl)) as (H1 & H2 & H3). assert (X : exists t1, check_section t k s g = Some t1).
  { unfold check_section. rewrite H1. cbn [negb]. destruct (d_nobits s); [eexists; reflexivity|]. destruct (negb g && d_group s); [eexists; reflexivity|].
    destruct (d_name s) as [nm|]; [|congruence]. destruct (find_name names nm 0) as [i|]; [|eexists; reflexivity]. destruct (t i); [eexists; reflexivity|].
    destruct (d_comp s && negb (d_unz s)); [eexists; reflexivity|]. destruct (d_data s) as [[|x b]|]; [eexists; reflexivity | eexists; reflexivity | congruence]. }
  destruct X as (t1 & ->). apply IH. intros s' I. apply H. right. exact I.
Qed.
