(* Proofs about reading memory from a core file. *)
From Coq Require Import Sorting.Sorted.
From Verif Require Import Base RemProof CoreModel CoreSpec.

Section core.
Variables (align : Z) (phdrs : list cph).
Hypothesis Ha : 0 < align.

Lemma round_id : forall x, 0 <= x -> x + align <= 2 ^ 64 -> x mod align = 0 -> round_up align x = x.
Proof.
  intros x H1 H2 H3. unfold round_up, u64. rewrite (Z.mod_small (x + align - 1)) by (change two64 with (2 ^ 64); lia).
  replace (x + align - 1) with ((align - 1) + x) by lia. rewrite Z.add_mod, H3, Z.add_0_r, Z.mod_mod by lia. rewrite Z.mod_small by lia. lia.
Qed.
Lemma mod_sum : forall x y, x mod align = 0 -> y mod align = 0 -> (x + y) mod align = 0.
Proof. intros x y H1 H2. rewrite Z.add_mod, H1, H2 by lia. apply Z.mod_0_l. lia. Qed.
Lemma good_end : forall p, good_ph align p -> c_load p = true ->
  round_up align (c_off p + c_filesz p) = c_off p + c_filesz p /\ round_up align (c_vaddr p + c_memsz p) = c_vaddr p + c_memsz p.
Proof.
  intros p G L. destruct (G L) as (G1 & G2 & G3 & G4 & G5 & G6 & G7 & G8 & G9).
  split; apply round_id; try lia; apply mod_sum; assumption.
Qed.

Record inv (off0 D : Z) (rest : list cph) (cur : cph) (e ev : Z) : Prop := {
  i_bytes : forall o, off0 <= o < e -> exists g, In g phdrs /\ c_load g = true /\ c_off g <= o < c_off g + c_filesz g /\ c_vaddr g - c_off g = D;
  i_rest : forall y, In y rest -> c_load y = true -> e <= c_off y /\ ev <= c_vaddr y;
  i_diff : c_filesz cur < c_memsz cur \/ ev - e = D;
  i_good : Forall (good_ph align) rest;
  i_order : in_order rest;
  i_incl : forall y, In y rest -> In y phdrs }.

Lemma do_more_ok : forall off0 D start size rest cur e ev ok s,
  inv off0 D rest cur e ev -> do_more align rest cur e ev start size = (ok, s) ->
  inv off0 D (k_rest s) (k_cur s) (k_end s) (k_endv s) /\ e <= k_end s /\ (ok = true -> start < k_end s /\ size <= k_end s - start).
Proof.
  intros off0 D start size rest. induction rest as [|p r IH]; intros cur e ev ok s I E; cbn [do_more] in E.
  - destruct ((e <=? start) || (e - start <? size)) eqn:C.
    + destruct (c_filesz cur <? c_memsz cur); injection E as <- <-; cbn; split; try exact I; split; try lia; discriminate.
    + injection E as <- <-. cbn. split; [exact I|]. split; [lia|]. intros _. lia.
  - destruct ((e <=? start) || (e - start <? size)) eqn:C.
    2:{ injection E as <- <-. cbn. split; [exact I|]. split; [lia|]. intros _. lia. }
    destruct (Z.ltb_spec (c_filesz cur) (c_memsz cur)) as [T | T]; [injection E as <- <-; cbn; split; [exact I|]; split; [lia | discriminate]|].
    destruct I as [I1 I2 I3 I4 I5 I6]. destruct I3 as [I3 | I3]; [lia|].
    pose proof (Forall_inv I4) as G0. pose proof (Forall_inv_tail I4) as Gr. destruct (StronglySorted_inv I5) as (Or & F). rewrite Forall_forall in F.
    assert (Ir : forall q, inv off0 D r q e ev).
    { intros q. constructor; try assumption; [intros y Hy; exact (I2 y (or_intror Hy)) | right; exact I3 | intros y Hy; exact (I6 y (or_intror Hy))]. }
    destruct (c_load p) eqn:L; [|exact (IH _ _ _ _ _ (Ir p) E)].
    destruct ((e <? c_off p) || (ev <? c_vaddr p)) eqn:Dc.
    + injection E as <- <-. cbn. split; [exact (Ir p)|]. split; [lia | discriminate].
    + destruct (I2 p (or_introl eq_refl) L) as (J1 & J2). assert (K1 : c_off p = e) by lia. assert (K2 : c_vaddr p = ev) by lia.
      destruct (good_end p G0 L) as (R1 & R2). destruct (G0 L) as (G1 & G2 & G3 & _). rewrite R1, R2 in E.
      apply IH in E; [destruct E as (E1 & E2 & E3); split; [exact E1|]; split; [lia | exact E3]|].
      constructor.
      * intros o Ho. destruct (Z.lt_ge_cases o e) as [Lo | Lo]; [exact (I1 o (conj (proj1 Ho) Lo))|].
        exists p. split; [exact (I6 p (or_introl eq_refl))|]. split; [exact L|]. split; lia.
      * intros y Hy Ly. exact (F y Hy ltac:(first [exact L | reflexivity]) Ly).
      * destruct (Z.lt_ge_cases (c_filesz p) (c_memsz p)); [left; lia | right; lia].
      * exact Gr.
      * exact Or.
      * intros y Hy. exact (I6 y (or_intror Hy)).
Qed.

Lemma first_ok : forall l a p, Forall (good_ph align) l -> in_order l -> In p l -> inside p a ->
  exists r, first_seg align l a = Some (p, r) /\ exists pre, l = pre ++ p :: r.
Proof.
  intros l a p. induction l as [|q l IH]; intros G O I N; [destruct I|]. inversion G as [|? ? G0 Gr]; subst. inversion O as [|? ? Or F]; subst.
  destruct N as (L & N). cbn [first_seg]. destruct I as [-> | I].
  - rewrite L. destruct (good_end p G0 L) as (_ & R). rewrite R. cbn [negb orb]. replace (c_vaddr p + c_memsz p <=? a) with false by lia.
    exists l. split; [reflexivity|]. exists []. reflexivity.
  - destruct (IH Gr Or I (conj L N)) as (r & E & pre & Ep).
    assert (X : negb (c_load q) || (round_up align (c_vaddr q + c_memsz q) <=? a) = true).
    { destruct (c_load q) eqn:Lq; [|reflexivity]. cbn. destruct (good_end q G0 Lq) as (_ & R). rewrite R.
      rewrite Forall_forall in F. destruct (F p I eq_refl L) as (_ & W). lia. }
    rewrite X. exists r. split; [exact E|]. exists (q :: pre). rewrite Ep. reflexivity.
Qed.
Lemma first_none : forall l a, Forall (good_ph align) l -> (forall p, In p l -> c_load p = true -> c_vaddr p + c_memsz p <= a) -> first_seg align l a = None.
Proof.
  intros l a. induction l as [|q l IH]; intros G H; [reflexivity|]. inversion G as [|? ? G0 Gr]; subst. cbn [first_seg].
  assert (X : negb (c_load q) || (round_up align (c_vaddr q + c_memsz q) <=? a) = true).
  { destruct (c_load q) eqn:Lq; [|reflexivity]. cbn. destruct (good_end q G0 Lq) as (_ & R). rewrite R. specialize (H q (or_introl eq_refl) Lq). lia. }
  rewrite X. apply IH; [exact Gr|]. intros p Hp. exact (H p (or_intror Hp)).
Qed.
End core.

Lemma order_app : forall a b, in_order (a ++ b) -> in_order b.
Proof. induction a as [|x a IH]; intros b H; [exact H|]. cbn in H. inversion H; subst. apply IH. assumption. Qed.
Lemma order_skipn : forall n l, in_order l -> in_order (skipn n l).
Proof. intros n l H. rewrite <- (firstn_skipn n l) in H. exact (order_app _ _ H). Qed.
Lemma in_skipn : forall A n (l : list A) x, In x (skipn n l) -> In x l.
Proof. intros A n l x H. rewrite <- (firstn_skipn n l). apply in_app_iff. right. exact H. Qed.

Lemma zn_zsub : forall A (l : list A) st n k x, 0 <= st -> 0 <= k -> znth (zsub l st n) k = Some x -> k < n /\ znth l (st + k) = Some x.
Proof.
  intros A l st n k x Hs Hk H. unfold znth in H. destruct ((0 <=? k) && (k <? zlen (zsub l st n))) eqn:C; [|discriminate].
  unfold zsub in *. assert (L : k < zlen (firstn (Z.to_nat n) (skipn (Z.to_nat st) l))) by lia. unfold zlen in L. rewrite firstn_length, skipn_length in L.
  assert (Kn : k < n) by lia. split; [exact Kn|]. rewrite ne_firstn in H by lia. rewrite ne_skipn in H.
  unfold znth, zlen. replace (0 <=? st + k) with true by lia. replace (st + k <? Z.of_nat (length l)) with true by lia. cbn [andb].
  rewrite <- H. f_equal. lia.
Qed.
Lemma zlen_zsub : forall A (l : list A) st n, 0 <= st <= zlen l -> 0 <= n -> zlen (zsub l st n) = Z.min n (zlen l - st).
Proof. intros A l st n H1 H2. unfold zsub, zlen in *. rewrite firstn_length, skipn_length. lia. Qed.

Lemma upto_ok : forall b c, upto_nul b = Some c -> exists s t, c = s ++ [0] /\ ~ In 0 s /\ b = c ++ t.
Proof.
  induction b as [|x b IH]; intros c H; [discriminate|]. cbn in H. destruct (Z.eqb_spec x 0) as [-> | N].
  - injection H as <-. exists [], b. split; [reflexivity|]. split; [intros [] | reflexivity].
  - destruct (upto_nul b) as [s|]; [|discriminate]. injection H as <-. destruct (IH s eq_refl) as (s0 & t & E & Ni & Eb).
    exists (x :: s0), t. rewrite E. split; [reflexivity|]. split; [intros [W | W]; [exact (N W) | exact (Ni W)]|]. rewrite Eb, E. reflexivity.
Qed.
Lemma string_ok : forall b c, string_of b = Some c -> exists s t, c = s ++ [0] /\ s <> [] /\ ~ In 0 s /\ b = c ++ t.
Proof.
  intros b c H. unfold string_of in H. destruct (upto_nul b) as [z|] eqn:E; [|discriminate].
  assert (W : z = c) by (destruct z as [|? [|? ?]]; [injection H as <-; reflexivity | discriminate | injection H as <-; reflexivity]). subst z.
  destruct (upto_ok _ _ E) as (s & t & E1 & N & E2). exists s, t. split; [exact E1|]. split; [|split; assumption].
  intros ->. subst c. discriminate H.
Qed.
Lemma zn_prefix : forall A (c t : list A) k x, 0 <= k -> znth c k = Some x -> znth (c ++ t) k = Some x.
Proof. intros A c t k x Hk H. rewrite zn_app by exact Hk. assert (L : k < zlen c) by (unfold znth in H; destruct ((0 <=? k) && (k <? zlen c)) eqn:C; [lia | discriminate]). replace (k <? zlen c) with true by lia. exact H. Qed.
