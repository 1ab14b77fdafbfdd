(* What reading memory from a core file has to give.  The core file holds, for each segment, the bytes of memory from its address on. *)
From Coq Require Import Sorting.Sorted.
From Verif Require Import Base CoreModel.

(* byte x is the byte of memory at address a *)
Definition holds (phdrs : list cph) (file : bytes) (a : Z) (x : Z) : Prop :=
  exists p, In p phdrs /\ c_load p = true /\ c_vaddr p <= a < c_vaddr p + c_filesz p /\ znth file (c_off p + (a - c_vaddr p)) = Some x.

(* a segment as the kernel writes it: whole pages, of which the first are in the file *)
Definition good_ph (align : Z) (p : cph) : Prop :=
  c_load p = true ->
  0 <= c_off p /\ 0 <= c_vaddr p /\ 0 <= c_filesz p <= c_memsz p /\ c_vaddr p + c_memsz p + align <= 2 ^ 64 /\ c_off p + c_memsz p + align <= 2 ^ 64 /\
  c_off p mod align = 0 /\ c_vaddr p mod align = 0 /\ c_filesz p mod align = 0 /\ c_memsz p mod align = 0.
(* the segments are in order, in the file and in memory *)
Definition in_order (l : list cph) : Prop :=
  StronglySorted (fun p q => c_load p = true -> c_load q = true -> c_off p + c_filesz p <= c_off q /\ c_vaddr p + c_memsz p <= c_vaddr q) l.
(* segment p holds the address a *)
Definition inside (p : cph) (a : Z) : Prop := c_load p = true /\ c_vaddr p <= a < c_vaddr p + c_memsz p.
