(* Breakpoints at the entry of a function, over the rows of the line table. *)
From Verif Require Import Base LineModel.

(* rows by address; where a sequence ends and another begins, the end comes first *)
Definition ordered (lines : list line) : Prop :=
  forall i j x y, i < j -> znth lines i = Some x -> znth lines j = Some y -> n_addr x < n_addr y \/ (n_addr x = n_addr y /\ (n_end y = true -> n_end x = true)).
(* row k is one of the instruction at an address *)
Definition row_at (lines : list line) (a k : Z) : Prop := exists x, znth lines k = Some x /\ n_addr x = a /\ n_end x = false.
(* the addresses of the rows from k to before u and below high that are marked as the end
   of a prologue *)
Definition marked (lines : list line) (k u high : Z) : list Z := map n_addr (filter (fun x => n_pe x && (n_addr x <? high)) (zsub lines k (u - k))).
(* the first row behind row k and below high that is not the end of a sequence *)
Definition next_row (lines : list line) (k high : Z) : option Z :=
  match find (fun x => negb (n_end x) && (n_addr x <? high)) (zsub lines (k + 1) (zlen lines - (k + 1))) with Some x => Some (n_addr x) | None => None end.
(* row k is one at the address, and of the rows before u every one at the address is: row u is
   of a later address, or there is none *)
Definition window (lines : list line) (a k u : Z) : Prop :=
  row_at lines a k /\ k < u <= zlen lines /\ (u = zlen lines \/ exists y, znth lines u = Some y /\ a < n_addr y).
(* the breakpoints marked in the line table for a range *)
Definition range_marks (lines : list line) (r : Z * Z) (l : list Z) : Prop := exists k u, window lines (fst r) k u /\ l = marked lines k u (snd r).
(* the first of the ranges with the least beginning *)
Definition first_least (rs : list (Z * Z)) (r : Z * Z) : Prop :=
  exists before after, rs = before ++ r :: after /\ Forall (fun x => fst r < fst x) before /\ Forall (fun x => fst r <= fst x) after.
