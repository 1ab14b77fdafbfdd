(* Model of libdwelf/dwelf_strtab.c, the string table builder. *)
From Verif Require Import Base.

(* Entries are identified by their address, as in C: the entry for "" embedded
   in the table (&st->null), or a position inside a memory block. *)
Inductive eptr := ENull | EAt (blk : nat) (off : Z).

(* dwelf_strtab.c:47-56 struct Dwelf_Strent: [se_str] is the string passed by
   the user with its len bytes (the last one is the NUL); "reverse" is
   determined by it (newstring 179-181), "offset" is produced by copystrings;
   next/left/right are the list and tree structure below. *)
Record sent := { se_ptr : eptr; se_str : bytes }.
Definition se_len (e : sent) : Z := zlen (se_str e).

(* The binary tree: left child, node, node->next chain, right child. *)
Inductive stree := SLeaf | SNode (l : stree) (e : sent) (subs : list sent) (r : stree).

(* dwelf_strtab.c:66-76 struct Dwelf_Strtab.  The memory blocks are given by
   their sizes, oldest first; backp is at offset st_boff of the newest block.
   st_null is null.string != NULL, equal to nullstr (init 96-104). *)
Record strtab := {
  st_root : stree; st_blocks : list Z; st_boff : Z; st_left : Z; st_total : Z; st_null : bool
}.

(* sizeof/alignof (struct Dwelf_Strent), offsetof (memoryblock, memory),
   MALLOC_OVERHEAD on a 64-bit host. *)
Definition SENT_SIZE := 48.
Definition SENT_ALIGN := 8.
Definition MB_OVERHEAD := 8.
Definition MALLOC_OVERHEAD := 16.

(* dwelf_strtab.c:85-107 *)
Definition strtab_init (nullstr : bool) : strtab :=
  {| st_root := SLeaf; st_blocks := []; st_boff := 0; st_left := 0; st_total := 0; st_null := nullstr |}.

(* dwelf_strtab.c:110-129 morememory; [alloc n]: does malloc (n) succeed. *)
Definition morememory (ps : Z) (alloc : Z -> bool) (st : strtab) (len : Z) : option strtab :=
  let len := len + (MB_OVERHEAD + MALLOC_OVERHEAD) in
  let len := (len / ps + (if len mod ps =? 0 then 0 else 1)) * ps - MALLOC_OVERHEAD in
  if alloc len
  then Some {| st_root := st_root st; st_blocks := st_blocks st ++ [len];
               st_boff := MB_OVERHEAD; st_left := len - MB_OVERHEAD;
               st_total := st_total st; st_null := st_null st |}
  else None.

(* Moves backp forward by n, or back if n < 0. *)
Definition bump (st : strtab) (n : Z) : strtab :=
  {| st_root := st_root st; st_blocks := st_blocks st; st_boff := st_boff st + n;
     st_left := st_left st - n; st_total := st_total st; st_null := st_null st |}.

(* dwelf_strtab.c:148-187 newstring.  malloc returns 16-byte aligned memory,
   so the alignment of backp is that of its offset. *)
Definition newstring (ps : Z) (alloc : Z -> bool) (st : strtab) (str : bytes)
  : option (strtab * sent) :=
  let len := zlen str in
  let align := Z.land (SENT_ALIGN - Z.land (st_boff st) (SENT_ALIGN - 1)) (SENT_ALIGN - 1) in
  let fits := negb (st_left st <? align + SENT_SIZE + len) in
  match (if fits then Some (st, align)
         else match morememory ps alloc st (SENT_SIZE + len) with
              | Some st => Some (st, 0) | None => None end) with
  | None => None
  | Some (st, align) =>
      Some (bump st (align + SENT_SIZE + len),
            {| se_ptr := EAt (length (st_blocks st) - 1) (st_boff st + align); se_str := str |})
  end.

(* newstring 179-181: reverse[i] = str[len - 2 - i], reverse[len-1] = 0 *)
Definition reverse (e : sent) : bytes := rev (removelast (se_str e)) ++ [0].

Fixpoint memcmp (n : nat) (a b : bytes) : Z :=
  match n, a, b with
  | S n, x :: a, y :: b => if x =? y then memcmp n a b else x - y
  | _, _, _ => 0
  end.

(* How strtab_add (219-280) deals with the result of searchstring. *)
Inductive sadd :=
| SNew                 (* *sep == newstr: new tree node *)
| SSubOld (e : sent)   (* an equal substring entry exists *)
| SSubNew              (* newstr put into the next chain of a longer string *)
| SLonger (old : Z)    (* newstr replaces the shorter node of length old *)
| SExact (e : sent).   (* the node itself is the string *)

(* dwelf_strtab.c:191-216 searchstring together with the update of *sep in
   strtab_add 233-278; the pointer to pointer becomes structural recursion. *)
Fixpoint strtab_insert (t : stree) (n : sent) : stree * sadd :=
  match t with
  | SLeaf => (SNode SLeaf n [] SLeaf, SNew)
  | SNode l e subs r =>
      let c := memcmp (Z.to_nat (Z.min (se_len e) (se_len n) - 1)) (reverse e) (reverse n) in
      if c =? 0 then
        if se_len n <? se_len e then
          match find (fun s => se_len s =? se_len n) subs with
          | Some s => (t, SSubOld s)
          | None => (SNode l e (n :: subs) r, SSubNew)
          end
        else if negb (se_len e =? se_len n) then (SNode l n (e :: subs) r, SLonger (se_len e))
        else (t, SExact e)
      else if 0 <? c then let '(l', a) := strtab_insert l n in (SNode l' e subs r, a)
      else let '(r', a) := strtab_insert r n in (SNode l e subs r', a)
  end.

Definition set_tree (st : strtab) (t : stree) (total : Z) : strtab :=
  {| st_root := t; st_blocks := st_blocks st; st_boff := st_boff st; st_left := st_left st;
     st_total := total; st_null := st_null st |}.

(* dwelf_strtab.c:248-249 and 274-275: the new entry is released, backp := newstr *)
Definition unalloc (st : strtab) (n : sent) : strtab :=
  match se_ptr n with EAt _ off => bump st (off - st_boff st) | ENull => st end.

(* dwelf_strtab.c:219-280 strtab_add.  None is the NULL result, with the table
   unchanged.  len = 0 (out of bounds accesses) is UB; len is assumed to be
   below 2^31 in the theorems ("int i = len - 2"). *)
Definition strtab_add (ps : Z) (alloc : Z -> bool) (st : strtab) (str : bytes)
  : outcome (strtab * option eptr) :=
  if zlen str =? 0 then UB else
  if (zlen str =? 1) && st_null st then Ok (st, Some ENull) else
  match newstring ps alloc st str with
  | None => Ok (st, None)
  | Some (st, n) =>
      let '(t, a) := strtab_insert (st_root st) n in
      Ok (match a with
          | SNew => (set_tree st t (st_total st + zlen str), Some (se_ptr n))
          | SSubOld s => (unalloc st n, Some (se_ptr s))
          | SSubNew => (set_tree (bump st (- zlen str)) t (st_total st), Some (se_ptr n))
          | SLonger old => (set_tree st t (st_total st + (zlen str - old)), Some (se_ptr n))
          | SExact e => (unalloc st n, Some (se_ptr e))
          end)
  end.

(* dwelf_strtab.c:295-317 copystrings: the bytes copied, the offsets assigned
   and the next offset; failing asserts are UB. *)
Fixpoint sub_offsets (noff nlen : Z) (subs : list sent) : outcome (list (eptr * Z)) :=
  match subs with
  | [] => Ok []
  | s :: rest =>
      if negb (se_len s <? nlen) then UB else
      let off := noff + nlen - se_len s in
      if (off =? 0) && negb (match se_str s with c :: _ => c =? 0 | [] => false end) then UB else
      r <- sub_offsets noff nlen rest ;; Ok ((se_ptr s, off) :: r)
  end.

Fixpoint copystrings (t : stree) (off : Z) : outcome (bytes * list (eptr * Z) * Z) :=
  match t with
  | SLeaf => Ok ([], [], off)
  | SNode l e subs r =>
      ' (lb, lo, off) <- copystrings l off ;;
      so <- sub_offsets off (se_len e) subs ;;
      ' (rb, ro, off') <- copystrings r (off + se_len e) ;;
      Ok (lb ++ se_str e ++ rb, lo ++ (se_ptr e, off) :: so ++ ro, off')
  end.

(* dwelf_strtab.c:320-351 finalize: the buffer of d_size = total + nulllen
   bytes and the entries' offsets.  Copying past the buffer is UB, as is the
   failing assert at the end; a short copy would leave bytes unwritten. *)
Definition strtab_finalize (st : strtab) : outcome (bytes * list (eptr * Z)) :=
  let nulllen := if st_null st then 1 else 0 in
  ' (b, offs, copylen) <- copystrings (st_root st) nulllen ;;
  let buf := (if st_null st then [0] else []) ++ b in
  if st_total st + nulllen <? zlen buf then UB else
  if negb (copylen =? st_total st + nulllen) then UB else
  Ok (buf, offs).

(* dwelf_strtab.c:354-358 dwelf_strent_off after finalize; calloc and
   newstring set offset to 0. *)
Definition eptr_eqb (a b : eptr) : bool :=
  match a, b with
  | ENull, ENull => true
  | EAt i x, EAt j y => Nat.eqb i j && (x =? y)
  | _, _ => false
  end.
Fixpoint strent_off (offs : list (eptr * Z)) (p : eptr) : Z :=
  match offs with
  | [] => 0
  | (q, o) :: r => if eptr_eqb p q then o else strent_off r p
  end.

(* A history of additions: every string with the behaviour of malloc at that
   time; the entries returned, in order. *)
Fixpoint strtab_adds (ps : Z) (st : strtab) (l : list (bytes * (Z -> bool)))
  : outcome (strtab * list (option eptr)) :=
  match l with
  | [] => Ok (st, [])
  | (s, al) :: r =>
      ' (st, e) <- strtab_add ps al st s ;;
      ' (st, es) <- strtab_adds ps st r ;;
      Ok (st, e :: es)
  end.
