(* Model of the memory of a Dwarf handle: libdw/libdw_alloc.c and the macro libdw_alloc of libdw/libdwP.h.
   x & (align - 1) is x mod align, as align is a power of two. *)
From Verif Require Import Base.

(* libdwP.h:224-230 struct libdw_memblock: address of mem, size, remaining.  The header before mem has 24 bytes *)
Record blk := Blk { b_at : Z; b_size : Z; b_rem : Z }.
Definition HDR : Z := 24.

(* libdw_alloc.c:43-45: the size asked of malloc *)
Definition new_size (def req align : Z) : Z := Z.max def (u64 (align - 1 + 2 * req + HDR)).
(* libdw_alloc.c:40-60 __libdw_allocate, malloc gives p *)
Definition allocate (def : Z) (l : list blk) (req align p : Z) : Z * list blk :=
  let size := new_size def req align in
  let x := p + HDR + align - 1 in
  let result := x - x mod align in
  (result, Blk (p + HDR) (u64 (size - HDR)) (u64 (p + size - (result + req))) :: l).
(* libdwP.h:574-589 libdw_alloc.  The list is that of the blocks, with mem_tail first; p is what malloc would give, None if nothing: then the handler for lack of
   memory is called, which must not return *)
Inductive ares := Aok (a : Z) (l : list blk) | Aoom | Aub.
Definition needs_block (b : blk) (req align : Z) : bool :=
  let at_ := b_at b + (b_size b - b_rem b) in
  let pad := (align - at_ mod align) mod align in
  b_rem b <? u64 (req + pad).
Definition alloc (def : Z) (l : list blk) (tsize cnt align : Z) (p : option Z) : ares :=
  let req := u64 (tsize * cnt) in
  match l with
  | [] => Aub
  | b :: r =>
      let at_ := b_at b + (b_size b - b_rem b) in
      let pad := (align - at_ mod align) mod align in
      if needs_block b req align then match p with None => Aoom | Some p => let (a, l) := allocate def l req align p in Aok a l end
      else Aok (at_ + pad) (Blk (b_at b) (b_size b) (b_rem b - (req + pad)) :: r)
  end.
(* dwarf_begin_elf.c:419-425: the first block is behind the handle *)
Definition first_block (def at_ : Z) : list blk := [Blk (at_ + HDR) (def - HDR) (def - HDR)].

(* a history of requests: size, number, alignment, and what malloc gives if it is asked *)
Record areq := Areq { q_size : Z; q_cnt : Z; q_align : Z; q_malloc : option Z }.
Fixpoint run (def : Z) (l : list blk) (qs : list areq) : list (Z * Z) * ares :=
  match qs with
  | [] => ([], Aok 0 l)
  | q :: r =>
      match alloc def l (q_size q) (q_cnt q) (q_align q) (q_malloc q) with
      | Aok a l => let (out, e) := run def l r in ((a, q_size q * q_cnt q) :: out, e)
      | e => ([], e)
      end
  end.
