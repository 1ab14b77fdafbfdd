(* Model of the open-addressing hash tables of lib/dynamicsizehash.c (used by
   libdw and libasm) and lib/fixedsizehash.h (used by nlist).
   TYPE and COMPARE are macros in the source and parameters here:
   [same a b] stands for COMPARE (a, b) == 0. *)
From Verif Require Import Base PrimeModel.

Section Htab.
Variable TYPE : Type.
Variable same : TYPE -> TYPE -> bool.

(* dynamicsizehash.h:62-70, fixedsizehash.h:83-93: an entry; calloc gives
   entries with hash value 0, which is what "empty" means. *)
Notation slot := (option (Z * TYPE)).
Definition hashval (s : slot) : Z := match s with None => 0 | Some (h, _) => h end.

Definition slot_at (tab : list slot) (idx : Z) : outcome slot :=
  match znth tab idx with None => UB | Some s => Ok s end.

(* dynamicsizehash.c:57-58, fixedsizehash.h:148-149: hash and data equal.
   Comparing with the data of a never used entry is UB (a null pointer). *)
Definition slot_match (s : slot) (hval : Z) (val : TYPE) : outcome bool :=
  match s with
  | Some (h, d) => Ok ((h =? hval) && same d val)
  | None => if hval =? 0 then UB else Ok false
  end.

(* dynamicsizehash.c:64-76, fixedsizehash.h:155-166: the probing loop. *)
Fixpoint lookup_loop (fuel : nat) (tab : list slot) (size hval : Z) (val : TYPE)
  (hash idx : Z) : outcome Z :=
  match fuel with
  | O => Fuel
  | S f =>
      let idx := if idx <=? hash then u64 (u64 (size + idx) - hash) else u64 (idx - hash) in
      s <- slot_at tab idx ;;
      m <- slot_match s hval val ;;
      if m : bool then Ok idx
      else if hashval s =? 0 then Ok idx
      else lookup_loop f tab size hval val hash idx
  end.

(* dynamicsizehash.c:46-79 lookup, fixedsizehash.h:137-170 fshash_lookup (the
   latter returns the address of the entry; here its index). *)
Definition lookup (tab : list slot) (size hval : Z) (val : TYPE) : outcome Z :=
  let idx := u64 (1 + (if hval <? size then hval else hval mod size)) in
  s <- slot_at tab idx ;;
  if hashval s =? 0 then Ok idx
  else
    m <- slot_match s hval val ;;
    if m : bool then Ok idx
    else
      let hash := u64 (1 + hval mod (u64 (size - 2))) in
      lookup_loop (length tab) tab size hval val hash idx.

(* ------------------------------------------------------------------ *)
(* dynamicsizehash.h:74-83 the table.  [ht_first] is the chain of entries
   starting at "first" (REVERSE variant: latest first), as indices. *)
Record htab := {
  ht_size : Z;
  ht_filled : Z;
  ht_table : list slot;
  ht_first : list Z
}.

(* The two variants used in the code base: libdw (no ITERATE) and libasm
   (ITERATE and REVERSE). *)
Inductive variant := Plain | IterReverse.

(* dynamicsizehash.c:160-164: the used entries by index. *)
Definition used_by_index (tab : list slot) : list (Z * TYPE) :=
  flat_map (fun s => match s with
                     | Some (h, d) => if h =? 0 then [] else [(h, d)]
                     | None => []
                     end) (skipn 1 tab).

(* dynamicsizehash.c:143-150: the entries along the "first" chain. *)
Definition used_by_chain (tab : list slot) (first : list Z) : list (Z * TYPE) :=
  flat_map (fun i => match znth tab i with Some (Some e) => [e] | _ => [] end) first.

(* dynamicsizehash.c:82-169 insert_entry_2.  [depth] bounds the recursion of
   insert_entry_2 into itself, [npf] the search for a prime, [alloc n] says
   whether calloc of n entries succeeds. *)
Fixpoint insert_entry_2 (depth npf : nat) (alloc : Z -> bool) (v : variant)
  (t : htab) (hval idx : Z) (data : TYPE) : outcome htab :=
  match depth with
  | O => Fuel
  | S dep =>
      s <- slot_at (ht_table t) idx ;;
      let first := if hashval s =? 0 then idx :: ht_first t else ht_first t in
      let table := zset (ht_table t) idx (Some (hval, data)) in
      let filled := u64 (ht_filled t + 1) in
      if u64 (90 * ht_size t) <? u64 (100 * filled) then
        size <- next_prime npf (u64 (ht_size t * 2)) ;;
        if alloc (1 + size) then
          if zlen table <? 1 + ht_size t then UB else
          let entries := match v with
                         | Plain => used_by_index table
                         | IterReverse => used_by_chain table first
                         end in
          fold_left
            (fun acc e =>
               t' <- acc ;;
               i <- lookup (ht_table t') (ht_size t') (fst e) (snd e) ;;
               insert_entry_2 dep npf alloc v t' (fst e) i (snd e))
            entries
            (Ok {| ht_size := size; ht_filled := 0;
                   ht_table := repeat None (Z.to_nat (1 + size)); ht_first := [] |})
        else Ok {| ht_size := size; ht_filled := 0; ht_table := table; ht_first := [] |}
      else Ok {| ht_size := ht_size t; ht_filled := filled; ht_table := table; ht_first := first |}
  end.

(* dynamicsizehash.c:172-192 name_init; None when calloc fails. *)
Definition ht_init (npf : nat) (alloc : Z -> bool) (init_size : Z) : outcome (option htab) :=
  size <- next_prime npf init_size ;;
  if alloc (size + 1) then
    Ok (Some {| ht_size := size; ht_filled := 0;
                ht_table := repeat None (Z.to_nat (size + 1)); ht_first := [] |})
  else Ok None.

(* "hval = hval ?: 1" *)
Definition nonzero_hash (h : Z) : Z := if h =? 0 then 1 else h.

(* dynamicsizehash.c:206-226 name_insert: table and return code. *)
Definition ht_insert (npf : nat) (alloc : Z -> bool) (v : variant) (t : htab)
  (hval : Z) (data : TYPE) : outcome (htab * Z) :=
  let hval := nonzero_hash hval in
  idx <- lookup (ht_table t) (ht_size t) hval data ;;
  s <- slot_at (ht_table t) idx ;;
  if hashval s =? 0 then
    t' <- insert_entry_2 2 npf alloc v t hval idx data ;; Ok (t', 0)
  else Ok (t, -1).

(* dynamicsizehash.c:229-247 name_overwrite. *)
Definition ht_overwrite (npf : nat) (alloc : Z -> bool) (v : variant) (t : htab)
  (hval : Z) (data : TYPE) : outcome (htab * Z) :=
  let hval := nonzero_hash hval in
  idx <- lookup (ht_table t) (ht_size t) hval data ;;
  t' <- insert_entry_2 2 npf alloc v t hval idx data ;; Ok (t', 0).

(* dynamicsizehash.c:250-267 name_find. *)
Definition ht_find (t : htab) (hval : Z) (val : TYPE) : outcome (option TYPE) :=
  let hval := nonzero_hash hval in
  idx <- lookup (ht_table t) (ht_size t) hval val ;;
  s <- slot_at (ht_table t) idx ;;
  match s with
  | Some (h, d) => if h =? 0 then Ok None else Ok (Some d)
  | None => Ok None
  end.

(* dynamicsizehash.c:270-315 name_iterate (REVERSE): the successive results
   of iterating from the start. *)
Definition ht_iterate (t : htab) : list TYPE :=
  map snd (used_by_chain (ht_table t) (ht_first t)).

(* ------------------------------------------------------------------ *)
(* lib/fixedsizehash.h *)
Record fshash := { fs_nslots : Z; fs_table : list slot }.

(* fixedsizehash.h:98-125 fshash_init; None is the NULL result. *)
Definition fs_init (npf : nat) (alloc : Z -> bool) (nelems : Z) : outcome (option fshash) :=
  if (two64 - 1) / 3 * 2 <=? nelems then Ok None else
  n <- next_prime npf (Z.max (u64 (nelems * 3) / 2) 10) ;;
  if alloc (n + 1) then
    Ok (Some {| fs_nslots := n; fs_table := repeat None (Z.to_nat (n + 1)) |})
  else Ok None.

(* fixedsizehash.h:173-195 fshash_insert, with hval = HASHFCT (str). *)
Definition fs_insert (t : fshash) (hval : Z) (data : TYPE) : outcome (fshash * Z) :=
  idx <- lookup (fs_table t) (fs_nslots t) hval data ;;
  s <- slot_at (fs_table t) idx ;;
  if hashval s =? 0 then
    Ok ({| fs_nslots := fs_nslots t; fs_table := zset (fs_table t) idx (Some (hval, data)) |}, 0)
  else Ok (t, -1).

(* fixedsizehash.h:223-242 fshash_overwrite. *)
Definition fs_overwrite (t : fshash) (hval : Z) (data : TYPE) : outcome (fshash * Z) :=
  idx <- lookup (fs_table t) (fs_nslots t) hval data ;;
  s <- slot_at (fs_table t) idx ;;
  Ok ({| fs_nslots := fs_nslots t; fs_table := zset (fs_table t) idx (Some (hval, data)) |}, 0).

(* fixedsizehash.h:245-260 fshash_find. *)
Definition fs_find (t : fshash) (hval : Z) (val : TYPE) : outcome (option TYPE) :=
  idx <- lookup (fs_table t) (fs_nslots t) hval val ;;
  s <- slot_at (fs_table t) idx ;;
  match s with
  | Some (h, d) => if h =? 0 then Ok None else Ok (Some d)
  | None => Ok None
  end.

End Htab.

Arguments ht_size {TYPE} _.
Arguments ht_filled {TYPE} _.
Arguments ht_table {TYPE} _.
Arguments ht_first {TYPE} _.
Arguments fs_nslots {TYPE} _.
Arguments fs_table {TYPE} _.
Arguments hashval {TYPE} _.
Arguments slot_at {TYPE} _ _.
Arguments used_by_index {TYPE} _.
Arguments used_by_chain {TYPE} _ _.
