(* Model of lib/next_prime.c (size_t is 64 bits). *)
From Verif Require Import Base.

(* lib/next_prime.c:41-51, the loop of is_prime; Fuel when out of steps. *)
Fixpoint is_prime_loop (fuel : nat) (candidate divn sq : Z) : outcome bool :=
  match fuel with
  | O => Fuel
  | S f =>
      if (sq <? candidate) && negb (candidate mod divn =? 0) then
        let old_sq := sq in
        let divn := u64 (divn + 1) in
        let sq := u64 (sq + u64 (4 * divn)) in
        if sq <? old_sq then Ok true
        else is_prime_loop f candidate (u64 (divn + 1)) sq
      else Ok (negb (candidate mod divn =? 0))
  end.

(* lib/next_prime.c:34-52 is_prime.  Each iteration raises divn, which stays
   below candidate, so candidate steps are enough (proved). *)
Definition is_prime (candidate : Z) : outcome bool :=
  is_prime_loop (Z.to_nat candidate) candidate 3 (3 * 3).

(* lib/next_prime.c:62-65, the loop of next_prime. *)
Fixpoint next_prime_loop (fuel : nat) (seed : Z) : outcome Z :=
  match fuel with
  | O => Fuel
  | S f =>
      b <- is_prime seed ;;
      if b : bool then Ok seed else next_prime_loop f (u64 (seed + 2))
  end.

(* lib/next_prime.c:56-66 next_prime. *)
Definition next_prime (fuel : nat) (seed : Z) : outcome Z :=
  next_prime_loop fuel (Z.lor seed 1).
