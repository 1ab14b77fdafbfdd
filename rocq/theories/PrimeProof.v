From Verif Require Import Base PrimeModel.
From Coq Require Import Znumtheory.

Lemma odd_no_even_divisor : forall c k, Z.odd c = true -> (k | c) -> Z.odd k = true.
Proof.
  intros c k Hc [m Hm]. subst. rewrite Z.odd_mul in Hc. now apply andb_true_iff in Hc.
Qed.

Lemma no_small_divisor_prime : forall c d, 1 < c -> 1 < d -> c < d * d ->
  (forall k, 1 < k < d -> ~ (k | c)) -> prime c.
Proof.
  intros c d Hc Hd Hsq Hno.
  destruct (prime_dec c) as [|Hn]; [assumption|exfalso].
  destruct (not_prime_divide c Hc Hn) as (n & Hn1 & m & Hm).
  destruct (Z_lt_le_dec n d).
  - apply (Hno n); [lia|exists m; exact Hm].
  - apply (Hno m); [nia|exists n; lia].
Qed.

Lemma mod0_divide : forall c d, 0 < d -> c mod d = 0 -> (d | c).
Proof. intros; apply Z.mod_divide; lia. Qed.

Lemma prime_no_divisor : forall c k, prime c -> 1 < k < c -> ~ (k | c).
Proof.
  intros c k Hp Hk Hd. destruct (prime_divisors c Hp k Hd) as [H|[H|[H|H]]]; lia.
Qed.

Lemma is_prime_loop_spec : forall fuel c d,
  5 <= c < two64 -> Z.odd c = true -> 3 <= d -> Z.odd d = true -> d * d < two64 -> d < c ->
  (forall k, 1 < k < d -> ~ (k | c)) ->
  c - d < Z.of_nat fuel ->
  exists b, is_prime_loop fuel c d (d * d) = Ok b /\ (b = true <-> prime c).
Proof.
  induction fuel as [|fuel IH]; intros c d Hc Hodd Hd Hdo Hsq Hdc Hno Hf; [lia|].
  cbn [is_prime_loop].
  assert (Hdiv : c mod d = 0 -> ~ prime c).
  { intros E Hp. apply (prime_no_divisor c d Hp ltac:(lia)). apply mod0_divide; lia. }
  assert (Hd32 : d < two32) by nia.
  destruct (c mod d =? 0) eqn:Em.
  - rewrite andb_false_r. exists false. split; [reflexivity|].
    split; [discriminate|]. intros Hp. exfalso. apply Hdiv; [lia|assumption].
  - assert (Hno' : forall k, 1 < k < d + 2 -> ~ (k | c)).
    { intros k Hk Hkc.
      destruct (Z_lt_le_dec k d) as [|]; [exact (Hno k ltac:(lia) Hkc)|].
      assert (k = d \/ k = d + 1) as [->| ->] by lia.
      - apply Z.mod_divide in Hkc; lia.
      - pose proof (odd_no_even_divisor c (d + 1) Hodd Hkc) as Ho.
        rewrite Z.odd_add, Hdo in Ho. simpl in Ho. discriminate. }
    destruct (d * d <? c) eqn:Esq; cbn [negb andb].
    + assert (Hd2 : d + 1 <= two32) by lia.
      unfold u64. rewrite (Z.mod_small (d + 1)) by lia.
      rewrite (Z.mod_small (4 * (d + 1))) by lia.
      rewrite (Z.mod_small (d + 1 + 1)) by lia.
      replace (d + 1 + 1) with (d + 2) by lia.
      replace (d * d + 4 * (d + 1)) with ((d + 2) * (d + 2)) by ring.
      destruct (Z_lt_le_dec ((d + 2) * (d + 2)) two64) as [Hlt|Hge].
      * rewrite (Z.mod_small ((d + 2) * (d + 2))) by nia.
        replace ((d + 2) * (d + 2) <? d * d) with false by nia.
        apply IH; auto; try lia.
        { rewrite Z.odd_add, Hdo. reflexivity. }
        { nia. }
      * assert (E : ((d + 2) * (d + 2)) mod two64 = (d + 2) * (d + 2) - two64).
        { symmetry. apply Z.mod_unique with (q := 1); nia. }
        rewrite E. replace ((d + 2) * (d + 2) - two64 <? d * d) with true by nia.
        exists true. split; [reflexivity|]. split; [|reflexivity]. intros _.
        apply (no_small_divisor_prime c (d + 2)); try lia; assumption.
    + exists true. split; [reflexivity|]. split; [|reflexivity]. intros _.
      apply (no_small_divisor_prime c (d + 2)); try nia; assumption.
Qed.

Lemma is_prime_spec : forall c, 5 <= c < two64 -> Z.odd c = true ->
  exists b, is_prime c = Ok b /\ (b = true <-> prime c).
Proof.
  intros c Hc Ho. unfold is_prime. apply is_prime_loop_spec; auto; try lia.
  intros k Hk Hd. assert (k = 2) by lia; subst k.
  pose proof (odd_no_even_divisor c 2 Ho Hd) as E. discriminate.
Qed.

Lemma even_not_prime : forall c, 3 <= c -> Z.odd c = false -> ~ prime c.
Proof.
  intros c Hc Ho Hp. apply (prime_no_divisor c 2 Hp); [lia|].
  apply mod0_divide; [lia|]. rewrite Zmod_odd, Ho. reflexivity.
Qed.

Lemma next_prime_loop_spec : forall fuel n seed p,
  5 <= seed -> Z.odd seed = true -> prime p -> seed <= p < two64 ->
  (forall k, n <= k < seed -> ~ prime k) ->
  p - seed < Z.of_nat fuel ->
  exists q, next_prime_loop fuel seed = Ok q /\ prime q /\ seed <= q <= p
            /\ (forall k, n <= k < q -> ~ prime k).
Proof.
  induction fuel as [|fuel IH]; intros n seed p Hs Ho Hp Hsp Hno Hf; [lia|].
  cbn [next_prime_loop].
  destruct (is_prime_spec seed ltac:(lia) Ho) as (b & E & Hb). rewrite E. cbn [obind].
  destruct b.
  - exists seed. split; [reflexivity|]. split; [now apply Hb|]. split; [lia|assumption].
  - assert (Hnp : ~ prime seed) by (intros H; apply Hb in H; discriminate).
    assert (Hne : seed <> p) by congruence.
    assert (Hev : ~ prime (seed + 1)).
    { apply even_not_prime; [lia|]. rewrite Z.odd_add, Ho. reflexivity. }
    assert (Hne1 : seed + 1 <> p) by congruence.
    unfold u64. rewrite Z.mod_small by lia.
    destruct (IH n (seed + 2) p) as (q & Eq & Hq & Hr & Hl); auto; try lia.
    + rewrite Z.odd_add, Ho. reflexivity.
    + intros k Hk. destruct (Z_lt_le_dec k seed); [apply Hno; lia|].
      assert (k = seed \/ k = seed + 1) as [->| ->] by lia; assumption.
    + exists q. split; [exact Eq|]. split; [exact Hq|]. split; [lia|exact Hl].
Qed.

Lemma lor_1 : forall n, 0 <= n -> Z.lor n 1 = if Z.odd n then n else n + 1.
Proof.
  intros n Hn. rewrite (Z.div_mod n 2) at 1 by lia.
  rewrite Z.lor_comm.
  destruct (Z.odd n) eqn:E; pose proof (Zmod_odd n) as M; rewrite E in M.
  - pose proof (Z.div_mod n 2 ltac:(lia)) as D. rewrite M in *.
    replace (Z.lor 1 (2 * (n / 2) + 1)) with (2 * (n / 2) + 1); [lia|].
    apply Z.bits_inj'; intros k Hk. rewrite Z.lor_spec.
    destruct (Z.eq_dec k 0) as [->|]; [rewrite Z.testbit_odd_0; reflexivity|].
    replace (Z.testbit 1 k) with false; [reflexivity|].
    symmetry. apply Z.bits_above_log2; simpl; lia.
  - pose proof (Z.div_mod n 2 ltac:(lia)) as D. rewrite M in *.
    rewrite Z.add_0_r. rewrite (Z.mul_comm 2).
    replace (n / 2 * 2) with (n / 2 * 2 ^ 1) by reflexivity.
    rewrite lor_add_pow2 by lia. change (2 ^ 1) with 2. lia.
Qed.

Lemma next_prime_spec : forall fuel n p,
  4 <= n -> prime p -> n <= p < two64 -> p - n < Z.of_nat fuel ->
  exists q, next_prime fuel n = Ok q /\ prime q /\ n <= q <= p
            /\ (forall k, n <= k < q -> ~ prime k).
Proof.
  intros fuel n p Hn Hp Hr Hf. unfold next_prime. rewrite lor_1 by lia.
  destruct (Z.odd n) eqn:Eo.
  - assert (n <> 4) by (intros ->; discriminate).
    destruct (next_prime_loop_spec fuel n n p) as (q & A & B & C & D); auto; try lia.
    exists q; auto.
  - assert (Hnp : ~ prime n) by (apply even_not_prime; lia || assumption).
    assert (n <> p) by congruence.
    destruct (next_prime_loop_spec fuel n (n + 1) p) as (q & A & B & C & D); auto; try lia.
    + rewrite Z.odd_add, Eo. reflexivity.
    + intros k Hk. assert (k = n) as -> by lia. assumption.
    + exists q. split; [exact A|]. split; [exact B|]. split; [lia|exact D].
Qed.

(* soundness without knowing a bound: whatever it returns is the least prime *)
Lemma next_prime_loop_sound : forall fuel n seed q,
  5 <= seed < two64 -> Z.odd seed = true ->
  (forall k, n <= k < seed -> ~ prime k) ->
  seed + 2 * Z.of_nat fuel < two64 ->
  next_prime_loop fuel seed = Ok q ->
  prime q /\ seed <= q /\ (forall k, n <= k < q -> ~ prime k).
Proof.
  induction fuel as [|fuel IH]; intros n seed q Hs Ho Hno Hb H; [discriminate|].
  cbn [next_prime_loop] in H.
  destruct (is_prime_spec seed Hs Ho) as (b & E & Hbp). rewrite E in H. cbn [obind] in H.
  destruct b.
  - inversion H; subst. split; [now apply Hbp|]. split; [lia|assumption].
  - assert (Hnp : ~ prime seed) by (intros Hp; apply Hbp in Hp; discriminate).
    unfold u64 in H. rewrite Z.mod_small in H by lia.
    destruct (IH n (seed + 2) q) as (A & B & C); auto; try lia.
    + rewrite Z.odd_add, Ho. reflexivity.
    + intros k Hk. destruct (Z_lt_le_dec k seed); [apply Hno; lia|].
      assert (k = seed \/ k = seed + 1) as [->| ->] by lia; [assumption|].
      apply even_not_prime; [lia|]. rewrite Z.odd_add, Ho. reflexivity.
    + split; [exact A|]. split; [lia|exact C].
Qed.
