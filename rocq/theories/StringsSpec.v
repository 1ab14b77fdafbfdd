(* What strings should print, without reference to the way it does it. *)
From Coq Require Import Sorting.Sorted.
From Verif Require Import Base.

(* In the bytes l, which are at offset base in the file, there is the string s at offset o: at least min good bytes, as many as there are before it and after it, and with a byte
   after them that ends it *)
Definition found (gd : Z -> bool) (min base : Z) (l : bytes) (x : Z * bytes) : Prop :=
  exists a c b, l = a ++ snd x ++ c :: b /\ fst x = base + zlen a /\ Forall (fun c => gd c = true) (snd x) /\ min <= zlen (snd x) /\ gd c = false /\
    (a = [] \/ exists a' d, a = a' ++ [d] /\ gd d = false).
(* out is all of them, once each, in the order of the file *)
Definition prints (gd : Z -> bool) (min base : Z) (l : bytes) (out : list (Z * bytes)) : Prop :=
  (forall x, In x out <-> found gd min base l x) /\ StronglySorted (fun x y => fst x < fst y) out.
