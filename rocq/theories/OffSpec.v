(* What the layout of a relocatable file is to be, without the variables of the code. *)
From Verif Require Import Base OffModel.

(* a power of two that fits 64 bits *)
Definition pw (a : Z) : Prop := exists k, 0 <= k < 64 /\ a = 2 ^ k.
(* the least multiple of a that is not below x *)
Definition up (x a : Z) : Z := a * ((x + a - 1) / a).
(* the greatest alignment, at least 256 *)
Fixpoint greatest (m : Z) (hs : list rsh) : Z :=
  match hs with [] => m | h :: hs => greatest (if r_alloc h then Z.max m (align_of h) else m) hs end.
(* the size of the loaded sections one after the other, each aligned, from offset e on *)
Fixpoint total (e : Z) (hs : list rsh) : Z :=
  match hs with [] => e | h :: hs => total (if r_alloc h then up e (align_of h) + r_size h else e) hs end.
(* hs' is hs with the loaded sections at these offsets from start; a section of no size with
   nothing before it may also be anywhere from low to start *)
Fixpoint laid (low start e : Z) (hs hs' : list rsh) : Prop :=
  match hs, hs' with
  | [], [] => True
  | h :: hs, h' :: hs' =>
    if r_alloc h then
      (exists a, h' = set_addr h a /\
         (a = start + up e (align_of h) \/ (up e (align_of h) + r_size h = 0 /\ low <= a <= start /\ (align_of h | a)))) /\
      laid low start (up e (align_of h) + r_size h) hs hs'
    else h' = h /\ laid low start e hs hs'
  | _, _ => False
  end.
(* a header as a compiler writes it *)
Definition plain (h : rsh) : Prop := 0 <= r_size h /\ (r_alloc h = true -> r_addr h = 0) /\ (r_align h = 0 \/ pw (r_align h)).
(* a loaded section of a file that has been laid out *)
Definition set_before (h : rsh) : Prop := r_alloc h = true -> 0 < r_addr h /\ 0 <= r_size h /\ r_addr h + r_size h < two64 /\ (r_align h = 0 \/ pw (r_align h)) /\ (align_of h | r_addr h).
(* the lowest address and the highest end of the loaded sections; m, x: of those before *)
Fixpoint lowest (m : Z) (hs : list rsh) : Z := match hs with [] => m | h :: hs => lowest (if r_alloc h then Z.min m (r_addr h) else m) hs end.
Fixpoint highest (x : Z) (hs : list rsh) : Z := match hs with [] => x | h :: hs => highest (if r_alloc h then Z.max x (r_addr h + r_size h) else x) hs end.
(* program headers as the ELF specification wants them: addresses ascend, and fit *)
Definition loads_ok (ps : list ph) : Prop :=
  (forall p, In p ps -> p_load p = true -> 0 <= p_vaddr p /\ 0 <= p_memsz p /\ p_vaddr p + p_memsz p < two64) /\
  (forall a p b q c, ps = a ++ p :: b ++ q :: c -> p_load p = true -> p_load q = true -> p_vaddr p + p_memsz p <= p_vaddr q).
(* the ranges do not overlap and 64 KiB are between them *)
Fixpoint apart (from : Z) (l : list (Z * Z)) : Prop :=
  match l with [] => True | (s, e) :: l => from <= s <= e /\ apart (e + 65536) l end.
