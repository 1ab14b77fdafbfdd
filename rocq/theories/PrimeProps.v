(* C09: next_prime. *)
From Verif Require Import Base PrimeModel PrimeProof.
From Coq Require Import Znumtheory.

(* For every n >= 4 below some 64-bit prime p (and p - n + 1 loop steps) the
   result is the least prime >= n.  _partial: false for n < 4, see below. *)
Theorem C09_next_prime_is_least_prime_partial :
  forall fuel n p,
    4 <= n -> prime p -> n <= p < 2 ^ 64 -> p - n < Z.of_nat fuel ->
    exists q, next_prime fuel n = Ok q /\ prime q /\ n <= q /\
              (forall k, n <= k < q -> ~ prime k).
Proof.
  intros fuel n p H1 H2 H3 H4.
  destruct (next_prime_spec fuel n p) as (q & E & Hq & Hr & Hl); auto.
  exists q. split; [exact E|]. split; [exact Hq|]. split; [lia|exact Hl].
Qed.
Print Assumptions C09_next_prime_is_least_prime_partial.

Example C09_next_prime_nonvacuous : prime 101 /\ next_prime 20 90 = Ok 97.
Proof.
  split; [|reflexivity].
  apply (no_small_divisor_prime 101 11); try lia.
  intros k Hk D. apply Z.mod_divide in D; [|lia].
  assert (k = 2 \/ k = 3 \/ k = 4 \/ k = 5 \/ k = 6 \/ k = 7 \/ k = 8 \/ k = 9 \/ k = 10)
    as [->|[->|[->|[->|[->|[->|[->|[->| ->]]]]]]]] by lia; discriminate D.
Qed.

(* The primality test itself is exact on every odd 64-bit number >= 5. *)
Theorem C09_is_prime_exact :
  forall c, 5 <= c < 2 ^ 64 -> Z.odd c = true ->
    (is_prime c = Ok true /\ prime c) \/ (is_prime c = Ok false /\ ~ prime c).
Proof.
  intros c Hc Ho. destruct (is_prime_spec c Hc Ho) as ([|] & E & Hb).
  - left. split; [exact E|]. now apply Hb.
  - right. split; [exact E|]. intros Hp. apply Hb in Hp. discriminate.
Qed.
Print Assumptions C09_is_prime_exact.

Example C09_is_prime_nonvacuous : is_prime 121 = Ok false /\ is_prime 127 = Ok true.
Proof. split; reflexivity. Qed.

(* Below 4 the function is wrong: it answers 1 for 0 and 1, and skips the
   primes 2 and 3. *)
Theorem C09_next_prime_small_arguments_refuted :
  next_prime 10 1 = Ok 1 /\ ~ prime 1 /\
  next_prime 10 2 = Ok 5 /\ prime 2 /\ next_prime 10 3 = Ok 5 /\ prime 3.
Proof.
  split; [reflexivity|]. split; [apply not_prime_1|]. split; [reflexivity|].
  split; [apply prime_2|]. split; [reflexivity|apply prime_3].
Qed.
Print Assumptions C09_next_prime_small_arguments_refuted.
