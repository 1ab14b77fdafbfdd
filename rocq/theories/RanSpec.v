(* What ranlib should do: the same members, with an index before them that has the symbols of each member at the place where that member is. *)
From Verif Require Import Base RanModel.

(* A member of an archive: its bytes with the header and the padding, whether it is an index, and the symbols it defines *)
Record amem := Amem { a_bytes : bytes; a_index : bool; a_syms : list bytes }.
Definition others (l : list amem) : list amem := filter (fun m => negb (a_index m)) l.
Definition body (l : list amem) : bytes := concat (map a_bytes l).
(* what is told of the members of an archive whose first member is at pos *)
Inductive walks : Z -> list amem -> list walk -> Prop :=
| W_nil p : walks p [] []
| W_cons p m l w ws : w_off w = p -> 0 <= w_size w -> zlen (a_bytes m) = 60 + (w_size w + 1) / 2 * 2 -> w_index w = a_index m -> w_syms w = a_syms m -> walks (p + zlen (a_bytes m)) l ws -> walks p (m :: l) (w :: ws).
(* the symbols with the place of their member *)
Fixpoint placed (p : Z) (l : list amem) : list (bytes * Z) :=
  match l with [] => [] | m :: r => map (fun s => (s, p)) (a_syms m) ++ placed (p + zlen (a_bytes m)) r end.
