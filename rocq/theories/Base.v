(* Common vocabulary of the model: machine integers, byte buffers, outcomes.
   Nothing here models a particular function of /repo. *)
From Coq Require Export ZArith List Bool Lia.
From Coq Require Export ZifyBool ZifyNat.
Export ListNotations.
Open Scope Z_scope.

(* ------------------------------------------------------------------ *)
(* Outcomes of running modelled code.  [UB] is behaviour the C standard
   leaves undefined or an abort: an access outside the object, a failed
   assert, signed overflow.  [Fuel] means the loop bound of the model was
   reached. *)
Inductive outcome (A : Type) : Type :=
| Ok (a : A)
| Err (e : Z)
| UB
| Fuel.
Arguments Ok {A} a.
Arguments Err {A} e.
Arguments UB {A}.
Arguments Fuel {A}.

Definition obind {A B : Type} (x : outcome A) (f : A -> outcome B) : outcome B :=
  match x with
  | Ok a => f a
  | Err e => Err e
  | UB => UB
  | Fuel => Fuel
  end.

Notation "x <- e ;; k" := (obind e (fun x => k))
  (at level 61, e at next level, right associativity).
Notation "' p <- e ;; k" := (obind e (fun x => match x with p => k end))
  (at level 61, p pattern, e at next level, right associativity).

(* ------------------------------------------------------------------ *)
(* Unsigned and signed machine integers. *)
Notation two8 := 256.
Notation two16 := 65536.
Notation two31 := 2147483648.
Notation two32 := 4294967296.
Notation two63 := 9223372036854775808.
Notation two64 := 18446744073709551616.

Definition u8 (x : Z) : Z := x mod two8.
Definition u16 (x : Z) : Z := x mod two16.
Definition u32 (x : Z) : Z := x mod two32.
Definition u64 (x : Z) : Z := x mod two64.

(* Two's complement reinterpretation. *)
Definition s8 (x : Z) : Z := (x + 128) mod two8 - 128.
Definition s16 (x : Z) : Z := (x + 32768) mod two16 - 32768.
Definition s32 (x : Z) : Z := (x + two31) mod two32 - two31.
Definition s64 (x : Z) : Z := (x + two63) mod two64 - two63.

Definition is_u8 (x : Z) : Prop := 0 <= x < two8.
Definition is_u16 (x : Z) : Prop := 0 <= x < two16.
Definition is_u32 (x : Z) : Prop := 0 <= x < two32.
Definition is_u64 (x : Z) : Prop := 0 <= x < two64.

(* ------------------------------------------------------------------ *)
(* Byte buffers. *)
Definition bytes := list Z.
Definition bytes_ok (b : bytes) : Prop := Forall is_u8 b.

Definition zlen {A : Type} (l : list A) : Z := Z.of_nat (length l).

(* Element at an integer index, [None] outside the object. *)
Definition znth {A : Type} (l : list A) (i : Z) : option A :=
  if (0 <=? i) && (i <? zlen l) then nth_error l (Z.to_nat i) else None.

(* The sub-buffer [off, off+n) ; meaningful when it lies inside. *)
Definition zsub {A : Type} (l : list A) (off n : Z) : list A :=
  firstn (Z.to_nat n) (skipn (Z.to_nat off) l).

(* Values of byte strings. *)
Fixpoint le_value (b : bytes) : Z :=
  match b with
  | [] => 0
  | x :: r => x + 256 * le_value r
  end.

Definition be_value (b : bytes) : Z := le_value (rev b).

(* n bytes of x, least significant first. *)
Fixpoint le_bytes (n : nat) (x : Z) : bytes :=
  match n with
  | O => []
  | S k => (x mod 256) :: le_bytes k (x / 256)
  end.

Definition be_bytes (n : nat) (x : Z) : bytes := rev (le_bytes n x).

(* ------------------------------------------------------------------ *)
(* Lemmas. *)
Lemma zlen_nonneg : forall A (l : list A), 0 <= zlen l.
Proof. intros A l; unfold zlen; lia. Qed.

Lemma zlen_app : forall A (l m : list A), zlen (l ++ m) = zlen l + zlen m.
Proof. intros A l m; unfold zlen; rewrite app_length; lia. Qed.

Lemma zlen_cons : forall A (x : A) (l : list A), zlen (x :: l) = 1 + zlen l.
Proof. intros A x l; unfold zlen; simpl length; lia. Qed.

Lemma zlen_nil : forall A, zlen (@nil A) = 0.
Proof. reflexivity. Qed.

Lemma zlen_rev : forall A (l : list A), zlen (rev l) = zlen l.
Proof. intros A l; unfold zlen; rewrite rev_length; reflexivity. Qed.

Lemma znth_Some : forall A (l : list A) i x,
  znth l i = Some x -> 0 <= i < zlen l /\ nth_error l (Z.to_nat i) = Some x.
Proof.
  intros A l i x H; unfold znth in H.
  destruct ((0 <=? i) && (i <? zlen l)) eqn:E; [|discriminate].
  split; [lia|exact H].
Qed.

Lemma znth_in : forall A (l : list A) i,
  0 <= i < zlen l -> exists x, znth l i = Some x.
Proof.
  intros A l i H; unfold znth.
  replace ((0 <=? i) && (i <? zlen l)) with true by lia.
  destruct (nth_error l (Z.to_nat i)) eqn:E; [eauto|].
  apply nth_error_None in E; unfold zlen in H; lia.
Qed.

Lemma znth_out : forall A (l : list A) i,
  ~ (0 <= i < zlen l) -> znth l i = None.
Proof.
  intros A l i H; unfold znth.
  replace ((0 <=? i) && (i <? zlen l)) with false by lia; reflexivity.
Qed.

Lemma znth_None : forall A (l : list A) i,
  znth l i = None -> ~ (0 <= i < zlen l).
Proof.
  intros A l i H Hi; destruct (znth_in A l i Hi) as [x Hx]; congruence.
Qed.

Lemma znth_app_l : forall A (l m : list A) i,
  i < zlen l -> znth (l ++ m) i = znth l i.
Proof.
  intros A l m i H; unfold znth; rewrite zlen_app.
  pose proof (zlen_nonneg A m).
  destruct (0 <=? i) eqn:E; simpl andb; [|reflexivity].
  replace (i <? zlen l + zlen m) with true by lia.
  replace (i <? zlen l) with true by lia.
  apply nth_error_app1; unfold zlen in H; lia.
Qed.

Lemma znth_app_r : forall A (l m : list A) i,
  zlen l <= i -> znth (l ++ m) i = znth m (i - zlen l).
Proof.
  intros A l m i H; unfold znth; rewrite zlen_app.
  pose proof (zlen_nonneg A l).
  replace (0 <=? i) with true by lia.
  replace (0 <=? i - zlen l) with true by lia. simpl andb.
  destruct (i <? zlen l + zlen m) eqn:E.
  - replace (i - zlen l <? zlen m) with true by lia.
    rewrite nth_error_app2 by (unfold zlen in H; lia).
    f_equal; unfold zlen; lia.
  - replace (i - zlen l <? zlen m) with false by lia; reflexivity.
Qed.

Lemma znth_0 : forall A (x : A) l, znth (x :: l) 0 = Some x.
Proof.
  intros; unfold znth; rewrite zlen_cons; pose proof (zlen_nonneg A l).
  replace ((0 <=? 0) && (0 <? 1 + zlen l)) with true by lia; reflexivity.
Qed.

Lemma znth_succ : forall A (x : A) l i,
  0 <= i -> znth (x :: l) (i + 1) = znth l i.
Proof.
  intros A x l i H; unfold znth; rewrite zlen_cons.
  replace (0 <=? i + 1) with true by lia.
  replace (0 <=? i) with true by lia.
  replace (i + 1 <? 1 + zlen l) with (i <? zlen l) by lia.
  replace (Z.to_nat (i + 1)) with (S (Z.to_nat i)) by lia.
  reflexivity.
Qed.

Lemma znth_map : forall A B (f : A -> B) l i,
  znth (map f l) i = option_map f (znth l i).
Proof.
  intros; unfold znth.
  assert (zlen (map f l) = zlen l) as -> by (unfold zlen; now rewrite map_length).
  destruct ((0 <=? i) && (i <? zlen l)); [|reflexivity].
  now rewrite nth_error_map.
Qed.

Lemma znth_firstn : forall A (l : list A) n i,
  0 <= n -> i < n -> znth (firstn (Z.to_nat n) l) i = znth l i.
Proof.
  intros A l n i Hn Hi.
  destruct (Z_lt_le_dec i 0) as [H0|H0].
  - rewrite !znth_out by lia; reflexivity.
  - rewrite <- (firstn_skipn (Z.to_nat n) l) at 2.
    destruct (Z_lt_le_dec i (zlen (firstn (Z.to_nat n) l))) as [H1|H1].
    + now rewrite znth_app_l.
    + rewrite (znth_out _ (firstn _ _)) by lia.
      rewrite znth_app_r by lia. symmetry; apply znth_out.
      unfold zlen in *; rewrite firstn_length in H1.
      assert (length l <= Z.to_nat n)%nat by lia.
      rewrite skipn_all2 by lia; simpl; lia.
Qed.

Lemma firstn_zlen_le : forall A (l : list A) n,
  0 <= n <= zlen l -> zlen (firstn (Z.to_nat n) l) = n.
Proof. intros A l n H; unfold zlen in *; rewrite firstn_length; lia. Qed.

Lemma zsub_length : forall A (l : list A) off n,
  0 <= off -> 0 <= n -> off + n <= zlen l -> zlen (zsub l off n) = n.
Proof.
  intros A l off n H1 H2 H3; unfold zsub, zlen in *.
  rewrite firstn_length, skipn_length; lia.
Qed.

Lemma zsub_app : forall A (p s q : list A),
  zsub (p ++ s ++ q) (zlen p) (zlen s) = s.
Proof.
  intros; unfold zsub, zlen. rewrite !Nat2Z.id.
  rewrite skipn_app, skipn_all, Nat.sub_diag. simpl.
  rewrite firstn_app, firstn_all, Nat.sub_diag. simpl. now rewrite app_nil_r.
Qed.

Lemma znth_zsub : forall A (l : list A) off n i,
  0 <= off -> 0 <= i < n -> znth (zsub l off n) i = znth l (off + i).
Proof.
  intros A l off n i Ho Hi. unfold zsub.
  rewrite znth_firstn by lia.
  rewrite <- (firstn_skipn (Z.to_nat off) l) at 2.
  destruct (Z_le_gt_dec off (zlen l)) as [H|H].
  - rewrite znth_app_r; rewrite firstn_zlen_le by lia; [|lia].
    f_equal; lia.
  - rewrite skipn_all2 by (unfold zlen in H; lia).
    rewrite app_nil_r, firstn_all2 by (unfold zlen in H; lia).
    rewrite !znth_out; [reflexivity|lia|rewrite zlen_nil; lia].
Qed.

Lemma bytes_ok_znth : forall b i x, bytes_ok b -> znth b i = Some x -> is_u8 x.
Proof.
  intros b i x Hb Hx; apply znth_Some in Hx; destruct Hx as [_ Hx].
  apply nth_error_In in Hx; unfold bytes_ok in Hb; rewrite Forall_forall in Hb; auto.
Qed.

Lemma bytes_ok_app : forall a b, bytes_ok (a ++ b) <-> bytes_ok a /\ bytes_ok b.
Proof. intros; unfold bytes_ok; apply Forall_app. Qed.

(* lor of disjoint parts is a sum *)
Lemma lor_add_pow2 : forall a b k,
  0 <= k -> 0 <= a < 2 ^ k -> Z.lor a (b * 2 ^ k) = a + b * 2 ^ k.
Proof.
  intros a b k Hk Ha.
  assert (Hd : Z.land a (b * 2 ^ k) = 0).
  { apply Z.bits_inj'; intros n Hn.
    rewrite Z.land_spec, Z.bits_0.
    rewrite <- Z.shiftl_mul_pow2 by lia.
    destruct (Z_lt_le_dec n k).
    - rewrite Z.shiftl_spec_low by lia. apply andb_false_r.
    - rewrite <- (Z.mod_small a (2 ^ k)) by lia.
      rewrite Z.mod_pow2_bits_high by lia. reflexivity. }
  rewrite Z.add_nocarry_lxor by exact Hd.
  now rewrite Z.lxor_lor.
Qed.

Lemma land_mask : forall a k, 0 <= k -> Z.land a (2 ^ k - 1) = a mod 2 ^ k.
Proof.
  intros a k Hk. replace (2 ^ k - 1) with (Z.ones k).
  - now rewrite Z.land_ones.
  - rewrite Z.ones_equiv; lia.
Qed.

Lemma land_127 : forall a, Z.land a 127 = a mod 128.
Proof. intros a; exact (land_mask a 7 ltac:(lia)). Qed.

Lemma land_255 : forall a, Z.land a 255 = a mod 256.
Proof. intros a; exact (land_mask a 8 ltac:(lia)). Qed.

Lemma land_128_u8 : forall b, 0 <= b < 256 -> Z.land b 128 = (if b <? 128 then 0 else 128).
Proof.
  intros b Hb.
  replace 128 with (2 ^ 7) at 1 by reflexivity.
  assert (E : Z.land b (2 ^ 7) = (if Z.testbit b 7 then 2 ^ 7 else 0)).
  { apply Z.bits_inj'; intros n Hn; rewrite Z.land_spec, Z.pow2_bits_eqb by lia.
    destruct (7 =? n) eqn:E7.
    - assert (n = 7) by lia; subst n. rewrite andb_true_r.
      destruct (Z.testbit b 7); [now rewrite Z.pow2_bits_true|now rewrite Z.bits_0].
    - rewrite andb_false_r. destruct (Z.testbit b 7); [|now rewrite Z.bits_0].
      rewrite Z.pow2_bits_eqb by lia. now rewrite E7. }
  rewrite E.
  rewrite Z.testbit_odd, Z.shiftr_div_pow2 by lia.
  change (2 ^ 7) with 128.
  destruct (b <? 128) eqn:Eb.
  - rewrite Z.div_small by lia. reflexivity.
  - assert (b / 128 = 1) as -> by (Z.div_mod_to_equations; lia).
    reflexivity.
Qed.

(* Little-endian round trips *)
Lemma le_bytes_length : forall n x, length (le_bytes n x) = n.
Proof. induction n as [|n IH]; intros x; simpl; [reflexivity|now rewrite IH]. Qed.

Lemma be_bytes_length : forall n x, length (be_bytes n x) = n.
Proof. intros; unfold be_bytes; rewrite rev_length; apply le_bytes_length. Qed.

Lemma le_bytes_ok : forall n x, bytes_ok (le_bytes n x).
Proof.
  induction n as [|n IH]; intros x; simpl; constructor; [|apply IH].
  unfold is_u8; pose proof (Z.mod_pos_bound x 256); lia.
Qed.

Lemma be_bytes_ok : forall n x, bytes_ok (be_bytes n x).
Proof. intros; unfold be_bytes, bytes_ok; apply Forall_rev, le_bytes_ok. Qed.

Lemma le_value_bytes : forall n x, le_value (le_bytes n x) = x mod 256 ^ Z.of_nat n.
Proof.
  induction n as [|n IH]; intros x.
  - simpl. now rewrite Z.mod_1_r.
  - cbn [le_bytes le_value]. rewrite IH.
    replace (256 ^ Z.of_nat (S n)) with (256 * 256 ^ Z.of_nat n)
      by (rewrite Nat2Z.inj_succ, Z.pow_succ_r by lia; lia).
    assert (0 < 256 ^ Z.of_nat n) by (apply Z.pow_pos_nonneg; lia).
    rewrite Z.rem_mul_r by lia. lia.
Qed.

Lemma le_value_bound : forall b, bytes_ok b -> 0 <= le_value b < 256 ^ zlen b.
Proof.
  induction b as [|x b IH]; intros H.
  - unfold zlen; simpl; lia.
  - inversion H as [|? ? Hx Hb]; subst. specialize (IH Hb).
    rewrite zlen_cons. cbn [le_value].
    rewrite Z.pow_add_r by (pose proof (zlen_nonneg _ b); lia).
    unfold is_u8 in Hx. change (256 ^ 1) with 256. nia.
Qed.

Lemma le_bytes_value : forall b, bytes_ok b -> le_bytes (length b) (le_value b) = b.
Proof.
  induction b as [|x b IH]; intros H; [reflexivity|].
  inversion H as [|? ? Hx Hb]; subst. unfold is_u8 in Hx.
  cbn [length le_bytes le_value].
  replace ((x + 256 * le_value b) mod 256) with x.
  - replace ((x + 256 * le_value b) / 256) with (le_value b).
    + now rewrite IH.
    + replace (x + 256 * le_value b) with (x + le_value b * 256) by lia.
      rewrite Z.div_add, Z.div_small by lia. lia.
  - replace (x + 256 * le_value b) with (x + le_value b * 256) by lia.
    rewrite Z.mod_add, Z.mod_small by lia. lia.
Qed.

Lemma be_value_bytes : forall n x, be_value (be_bytes n x) = x mod 256 ^ Z.of_nat n.
Proof. intros; unfold be_value, be_bytes; rewrite rev_involutive; apply le_value_bytes. Qed.

Lemma be_bytes_value : forall b, bytes_ok b -> be_bytes (length b) (be_value b) = b.
Proof.
  intros b H; unfold be_bytes, be_value.
  rewrite <- (rev_length b), le_bytes_value.
  - apply rev_involutive.
  - now apply Forall_rev.
Qed.

(* ------------------------------------------------------------------ *)
(* Updating one element. *)
Definition zset {A : Type} (l : list A) (i : Z) (x : A) : list A :=
  if (0 <=? i) && (i <? zlen l)
  then firstn (Z.to_nat i) l ++ x :: skipn (S (Z.to_nat i)) l
  else l.

Lemma zlen_zset : forall A (l : list A) i x, zlen (zset l i x) = zlen l.
Proof.
  intros A l i x; unfold zset.
  destruct ((0 <=? i) && (i <? zlen l)) eqn:E; [|reflexivity].
  unfold zlen in *. rewrite app_length. cbn [length].
  rewrite firstn_length, skipn_length. lia.
Qed.

Lemma znth_zset_eq : forall A (l : list A) i x, 0 <= i < zlen l -> znth (zset l i x) i = Some x.
Proof.
  intros A l i x H; unfold zset.
  replace ((0 <=? i) && (i <? zlen l)) with true by lia.
  rewrite znth_app_r; rewrite firstn_zlen_le by lia; [|lia].
  rewrite Z.sub_diag. apply znth_0.
Qed.

Lemma znth_skipn : forall A (l : list A) n i, 0 <= n -> 0 <= i ->
  znth (skipn (Z.to_nat n) l) i = znth l (n + i).
Proof.
  intros A l n i Hn Hi.
  destruct (Z_lt_le_dec (n + i) (zlen l)) as [H|H].
  - unfold znth.
    replace ((0 <=? n + i) && (n + i <? zlen l)) with true by lia.
    replace ((0 <=? i) && (i <? zlen (skipn (Z.to_nat n) l))) with true
      by (unfold zlen in *; rewrite skipn_length; lia).
    replace (Z.to_nat (n + i)) with (Z.to_nat n + Z.to_nat i)%nat by lia.
    generalize (Z.to_nat n) as a; intros a; revert l H; clear.
    intros l _; revert l; induction a as [|a IH]; intros l; [reflexivity|].
    destruct l; [simpl; now destruct (Z.to_nat i)|apply IH].
  - rewrite !znth_out; [reflexivity|lia|].
    unfold zlen in *; rewrite skipn_length; lia.
Qed.

Lemma znth_zset_neq : forall A (l : list A) i j x, i <> j -> znth (zset l i x) j = znth l j.
Proof.
  intros A l i j x Hij; unfold zset.
  destruct ((0 <=? i) && (i <? zlen l)) eqn:E; [|reflexivity].
  destruct (Z_lt_le_dec j i) as [H|H].
  - rewrite znth_app_l by (rewrite firstn_zlen_le; lia).
    apply znth_firstn; lia.
  - rewrite znth_app_r; rewrite firstn_zlen_le by lia; [|lia].
    replace (j - i) with ((j - i - 1) + 1) by lia.
    rewrite znth_succ by lia.
    replace (S (Z.to_nat i)) with (Z.to_nat (i + 1)) by lia.
    rewrite znth_skipn by lia. f_equal; lia.
Qed.

Lemma znth_repeat : forall A (x : A) n i, 0 <= i < Z.of_nat n -> znth (repeat x n) i = Some x.
Proof.
  intros A x n i H; unfold znth, zlen. rewrite repeat_length.
  replace ((0 <=? i) && (i <? Z.of_nat n)) with true by lia.
  apply nth_error_repeat; lia.
Qed.

Lemma zlen_repeat : forall A (x : A) n, zlen (repeat x n) = Z.of_nat n.
Proof. intros; unfold zlen; now rewrite repeat_length. Qed.

Lemma znth_In : forall A (l : list A) i x, znth l i = Some x -> In x l.
Proof.
  intros A l i x H; apply znth_Some in H; destruct H as [_ H].
  eapply nth_error_In; eauto.
Qed.

Lemma In_znth : forall A (l : list A) x, In x l -> exists i, 0 <= i < zlen l /\ znth l i = Some x.
Proof.
  intros A l x H. apply In_nth_error in H. destruct H as [n H].
  assert (n < length l)%nat by (apply nth_error_Some; congruence).
  exists (Z.of_nat n). split; [unfold zlen; lia|].
  unfold znth, zlen. replace ((0 <=? Z.of_nat n) && (Z.of_nat n <? Z.of_nat (length l))) with true by lia.
  now rewrite Nat2Z.id.
Qed.

Lemma firstn_plus : forall A (l : list A) a b,
  firstn (a + b) l = firstn a l ++ firstn b (skipn a l).
Proof.
  intros A l a; revert l; induction a as [|a IH]; intros l b; [reflexivity|].
  destruct l as [|x l]; [simpl; now rewrite firstn_nil|].
  simpl. now rewrite IH.
Qed.

Lemma zsub_split : forall A (d : list A) off n, 0 <= off -> 0 <= n ->
  firstn (Z.to_nat off) d ++ zsub d off n = firstn (Z.to_nat (off + n)) d.
Proof.
  intros A d off n H1 H2; unfold zsub.
  replace (Z.to_nat (off + n)) with (Z.to_nat off + Z.to_nat n)%nat by lia.
  now rewrite firstn_plus.
Qed.

Lemma znth_range : forall A (l : list A) i x, znth l i = Some x -> 0 <= i < zlen l.
Proof.
  intros A l i x H. destruct (Z_lt_le_dec i 0).
  - rewrite znth_out in H by lia. discriminate.
  - destruct (Z_lt_le_dec i (zlen l)); [lia|]. rewrite znth_out in H by lia. discriminate.
Qed.
