(* Address ranges: libdw/dwarf_getaranges.c, dwarf_getarange_addr.c, dwarf_onearange.c.

   Simplifications: memory is always available; the cache of a previous call is not
   modelled.  The unit an entry belongs to is found by [cu_of], from the offset of the
   unit to the offset of its DIE, or an error (__libdw_findcu, UnitModel).  qsort is a
   parameter [qs], a function giving some sorted permutation; the list of the entries in
   the order they were read stands for the linked list. *)
From Verif Require Import Base DwModel.

Record arange := AR { a_addr : Z; a_len : Z; a_off : Z }.

Section model.
Variables (fle : bool) (d : bytes) (info_size : Z) (info : option bytes) (cu_of : Z -> outcome Z) (qs : list arange -> list arange).

(* dwarf_getaranges.c:158-214, the entries of one set; acc: newest first *)
Fixpoint ar_entries (k : nat) (p asize offset : Z) (acc : list arange) : outcome (list arange * Z) :=
  match k with
  | O => Fuel
  | S k =>
    addr <- read_address fle d p asize ;;
    let p := p + asize in
    if zlen d <? p + asize then Err DWARF_E_INVALID_DWARF
    else
      len <- rd fle d p asize ;;
      let p := p + asize in
      if (addr =? 0) && (len =? 0) then Ok (acc, p)
      else
        die <- cu_of offset ;;
        if info_size <=? die then Err DWARF_E_INVALID_DWARF
        else ar_entries k p asize offset (AR addr len die :: acc)
  end.

(* dwarf_getaranges.c:88-215 *)
Fixpoint ar_sets (k : nat) (p : Z) (acc : list arange) : outcome (list arange) :=
  match k with
  | O => Fuel
  | S k' =>
    if zlen d <=? p then Ok acc
    else if zlen d <? p + 4 then Err DWARF_E_INVALID_DWARF
    else
      len0 <- rd fle d p 4 ;;
      let q := p + 4 in
      if (len0 =? LENGTH_64_BIT) && (zlen d <? q + 8) then Err DWARF_E_INVALID_DWARF
      else if negb (len0 =? LENGTH_64_BIT) && (LENGTH_MIN_ESCAPE <=? len0) then Err DWARF_E_INVALID_DWARF
      else
      let lbytes := if len0 =? LENGTH_64_BIT then 8 else 4 in
      let q := if len0 =? LENGTH_64_BIT then q + 8 else q in
      if zlen d <? q + 2 then Err DWARF_E_INVALID_DWARF
      else
      version <- rd fle d q 2 ;;
      let q := q + 2 in
      if negb (version =? 2) then Err DWARF_E_INVALID_DWARF
      else
      offset <- read_offset fle d q lbytes info 4 ;;
      let q := q + lbytes in
      if zlen d <? q + 2 then Err DWARF_E_INVALID_DWARF
      else
      asize <- rd fle d q 1 ;;
      if negb (asize =? 4) && negb (asize =? 8) then Err DWARF_E_INVALID_DWARF
      else
      ssize <- rd fle d (q + 1) 1 ;;
      if negb (ssize =? 0) then Err DWARF_E_INVALID_DWARF
      else
      let q := q + 2 in
      let q := q + (2 * asize - (q - p) mod (2 * asize)) mod (2 * asize) in
      '(acc, q) <- ar_entries k' q asize offset acc ;;
      ar_sets k' q acc
  end.

(* dwarf_getaranges.c:228-271: the buffer of n entries of three words holds the sorted
   pointers in its last n words, and is overwritten from the front. *)
Inductive word := Num (z : Z) | Ptr (a : arange).
Fixpoint copy_out (k : nat) (n i : Z) (buf : list word) : outcome (list word) :=
  match k with
  | O => Ok buf
  | S k =>
    match znth buf (2 * n + i) with
    | Some (Ptr a) =>
      let buf := zset buf (3 * i) (Num (a_addr a)) in
      let buf := zset buf (3 * i + 1) (Num (a_len a)) in
      let buf := zset buf (3 * i + 2) (Num (a_off a)) in
      copy_out k n (i + 1) buf
    | _ => UB
    end
  end.
Definition info_of (buf : list word) (i : Z) : option arange :=
  match znth buf (3 * i), znth buf (3 * i + 1), znth buf (3 * i + 2) with
  | Some (Num a), Some (Num l), Some (Num o) => Some (AR a l o)
  | _, _, _ => None
  end.
(* dwarf_getaranges.c:55-275; the result is the buffer and the number of entries, a
   count that is an unsigned int.  The assertions at 219 and 248 fail: UB. *)
Definition getaranges (k : nat) : outcome (Z * list word) :=
  acc <- ar_sets k 0 [] ;;
  let n := u32 (zlen acc) in
  if n =? 0 then (if zlen acc =? 0 then Ok (0, []) else UB)
  else if negb (n =? zlen acc) then UB
  else
    let sorted := qs (rev acc) in
    buf <- copy_out (Z.to_nat n) n 0 (repeat (Num 0) (Z.to_nat (2 * n)) ++ map Ptr sorted) ;;
    Ok (n, buf).
End model.

(* dwarf_getarange_addr.c:38-59 on the entries *)
Fixpoint ar_search (k : nat) (l : list arange) (addr lo hi : Z) : outcome (option Z) :=
  match k with
  | O => Fuel
  | S k =>
    if lo <? hi then
      let idx := (lo + hi) / 2 in
      match znth l idx with
      | None => UB
      | Some a =>
        if addr <? a_addr a then ar_search k l addr lo idx
        else if (a_addr a <? addr) && (a_len a <=? addr - a_addr a) then ar_search k l addr (idx + 1) hi
        else Ok (Some idx)
      end
    else Ok None
  end.
Definition getarange_addr (k : nat) (l : list arange) (addr : Z) : outcome (option Z) := ar_search k l addr 0 (zlen l).
