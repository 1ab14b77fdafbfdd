(* Where the sections of a module are, and what contains an address, without the code's table. *)
From Verif Require Import Base RelocModel DereModel.

(* the address section i is loaded at, before the bias; None: it is not loaded, or the callback does not know *)
Definition load_addr (is_rel : bool) (cb : Z -> option Z) (i : Z) (h : hdr) : option Z :=
  if h_alloc h then
    if (h_addr h =? 0) && is_rel then option_map (fun a => if a =? two64 - 1 then 0 else a) (cb i) else Some (h_addr h)
  else None.
(* section i of the file is from s to e *)
Definition placed (is_rel : bool) (bias : Z) (cb : Z -> option Z) (hs : list hdr) (i s e : Z) : Prop :=
  1 <= i /\ exists h a, znth hs i = Some h /\ load_addr is_rel cb i h = Some a /\ s = (a + bias) mod two64 /\ e = (a + bias + h_size h) mod two64.
(* section j has relocations for section i *)
Definition relocates (hs : list hdr) (j i : Z) : Prop := 1 <= j /\ exists h, znth hs j = Some h /\ h_rel h = true /\ h_size h <> 0 /\ h_info h = i.
(* the order of the table *)
Definition before (a b : secref) : Prop :=
  q_start a < q_start b \/ (q_start a = q_start b /\ (q_end a < q_end b \/ (q_end a = q_end b /\ q_scn a < q_scn b))).
(* no two sections of the file have an address in common, none is empty, and none goes round the end of the addresses *)
Definition disjoint (is_rel : bool) (bias : Z) (cb : Z -> option Z) (hs : list hdr) : Prop :=
  (forall i s e, placed is_rel bias cb hs i s e -> s < e) /\
  (forall i j s e s' e' x, placed is_rel bias cb hs i s e -> placed is_rel bias cb hs j s' e' -> s <= x < e -> s' <= x < e' -> i = j).
