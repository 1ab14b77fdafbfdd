(* Model of the segment and module tables of libdwfl:
   libdwfl/segment.c 35-337 (segment_start, segment_end, insert, lookup, reify_segments,
   dwfl_addrsegment, dwfl_report_segment), libdwfl/dwfl_addrmodule.c 35-42,
   libdwfl/dwfl_getmodules.c 35-95 (where iteration resumes).

   Simplifications: the parallel arrays lookup_addr, lookup_segndx, lookup_module, which
   are always moved together, are one list of entries; "lookup_module != NULL" is a flag.
   Allocation succeeds.  A module is its position in the module list.  gc'ed modules are
   left out of that list by the caller. *)
From Verif Require Import Base.

(* segment.c 57-59, 79-81: an element of the three arrays *)
Record entry := E { e_addr : Z; e_ndx : Z; e_mod : option Z }.

(* libdwflP.h 118-138: the fields of struct Dwfl used here; d_segs is the "segment" field of
   each module *)
Record dwfl := Dwfl {
  d_align : Z; d_tbl : list entry; d_alloc : Z; d_hasmod : bool; d_segs : list Z;
  t_ident : Z; t_vaddr : Z; t_off : Z; t_ndx : Z }.
(* dwfl_begin.c: calloc *)
Definition dwfl_begin : dwfl := Dwfl 0 [] 0 false [] 0 0 0 0.

(* segment.c 35-42, 44-51: all in 64-bit arithmetic *)
Definition seg_start (align s : Z) : Z := if 1 <? align then Z.land s (u64 (- align)) else s.
Definition seg_end (align e : Z) : Z := if 1 <? align then Z.land (u64 (e + align - 1)) (u64 (- align)) else e.

Definition ins_at {A} (l : list A) (i : Z) (x : list A) : list A := firstn (Z.to_nat i) l ++ x ++ skipn (Z.to_nat i) l.
Definition set_tbl (d : dwfl) (t : list entry) (al : Z) : dwfl :=
  Dwfl (d_align d) t al (d_hasmod d) (d_segs d) (t_ident d) (t_vaddr d) (t_off d) (t_ndx d).
Definition set_ndx (e : entry) (n : Z) : entry := E (e_addr e) n (e_mod e).
Definition set_mod (e : entry) (m : option Z) : entry := E (e_addr e) (e_ndx e) m.

(* segment.c 53-128.  Writing beyond the allocated arrays is undefined behaviour. *)
Definition insert (d : dwfl) (i s e ndx : Z) : outcome dwfl :=
  let t := d_tbl d in
  let need_start := (i =? 0) || negb (match znth t (i - 1) with Some x => e_addr x =? s | None => false end) in
  let need_end := (zlen t <=? i + 1) || negb (match znth t (i + 1) with Some x => e_addr x =? e | None => false end) in
  let need := (if need_start then 1 else 0) + (if need_end then 1 else 0) in
  if need =? 0 then Ok d else
  let al := if d_alloc d - zlen t <? need then (if d_alloc d =? 0 then 16 else d_alloc d * 2) else d_alloc d in
  if al <? zlen t + need then UB else
  let t1 := ins_at t i ((if need_start then [E s ndx None] else []) ++ (if need_end then [E e (-1) None] else [])) in
  let t2 := if need_start then t1 else match znth t1 (i - 1) with Some x => zset t1 (i - 1) (set_ndx x ndx) | None => t1 end in
  Ok (set_tbl d t2 al).

(* segment.c 141-154: the binary search *)
Fixpoint search (k : nat) (t : list entry) (a l u : Z) : outcome Z :=
  match k with
  | O => Fuel
  | S k' =>
    if negb (l <? u) then Ok (-1) else
    let idx := (l + u) / 2 in
    match znth t idx with
    | None => UB
    | Some x =>
      if a <? e_addr x then search k' t a l idx else
      if idx + 1 =? zlen t then Ok idx else
      match znth t (idx + 1) with
      | None => UB
      | Some y => if a <? e_addr y then Ok idx else search k' t a (idx + 1) u
      end
    end
  end.
(* segment.c 130-157 *)
Definition lookup (t : list entry) (a hint : Z) : outcome Z :=
  let full := search (S (length t)) t a 0 (zlen t) in
  if hint <? 0 then full else
  match znth t hint with
  | None => UB
  | Some x =>
    if e_addr x <=? a then
      if hint + 1 =? zlen t then Ok hint else
      match znth t (hint + 1) with
      | None => UB
      | Some y => if a <? e_addr y then Ok hint else full
      end
    else full
  end.

(* segment.c 215-219: put the module in every entry from idx that starts below its end *)
Fixpoint mark (k : nat) (t : list entry) (idx e m : Z) : outcome (list entry * Z) :=
  match k with
  | O => Fuel
  | S k' =>
    match znth t idx with
    | None => UB
    | Some x =>
      let t := zset t idx (set_mod x (Some m)) in
      let idx := idx + 1 in
      match znth t idx with
      | None => Ok (t, idx)
      | Some y => if e_addr y <? e then mark k' t idx e m else Ok (t, idx)
      end
    end
  end.

(* segment.c 161-243: the loop over the modules; ms: (low_addr, high_addr), m: position of
   the next module, state: the table, hint, highest, fixup *)
Definition clear_mods (t : list entry) : list entry := map (fun x => set_mod x None) t.
Definition set_mods (d : dwfl) (t : list entry) (sg : list Z) : dwfl :=
  Dwfl (d_align d) t (d_alloc d) true sg (t_ident d) (t_vaddr d) (t_off d) (t_ndx d).
Definition reify_one (d : dwfl) (lo hi m hint highest : Z) (fixup : bool) : outcome (dwfl * Z * Z * bool) :=
  let s := seg_start (d_align d) lo in
  let e := seg_end (d_align d) hi in
  idx <- lookup (d_tbl d) s hint ;;
  (* 173-200 *)
  ' (d, idx, resized) <-
    (if idx <? 0 then d' <- insert d 0 s e (-1) ;; Ok (d', 0, true)
     else match znth (d_tbl d) idx with
          | None => UB
          | Some x => if s <? e_addr x then d' <- insert d (idx + 1) s e (e_ndx x) ;; Ok (d', idx + 1, true)
                      else if e_addr x <? s then d' <- insert d (idx + 1) s e (-1) ;; Ok (d', idx + 1, true)
                      else Ok (d, idx, false)
          end) ;;
  (* 202-210 *)
  ' (d, resized) <-
    (match znth (d_tbl d) (idx + 1) with
     | Some y => if e <? e_addr y then d' <- insert d (idx + 1) e (e_addr y) (-1) ;; Ok (d', true) else Ok (d, resized)
     | None => Ok (d, resized)
     end) ;;
  (* 212-217: calloc gives null pointers *)
  let t := if d_hasmod d then d_tbl d else clear_mods (d_tbl d) in
  ' (t', idx') <- mark (S (length t)) t idx e m ;;
  let fixup := if resized && (highest <=? idx' - 1) then true else fixup in
  Ok (set_mods d t' (d_segs d ++ [idx]), (if idx' <? zlen t' then idx' else -1), idx' - 1, fixup).

Fixpoint reify_loop (d : dwfl) (ms : list (Z * Z)) (m hint highest : Z) (fixup : bool) : outcome (dwfl * bool) :=
  match ms with
  | [] => Ok (d, fixup)
  | (lo, hi) :: ms => ' (d, hint, highest, fixup) <- reify_one d lo hi m hint highest fixup ;; reify_loop d ms (m + 1) hint highest fixup
  end.
(* 236-240 *)
Fixpoint fix_segs (t : list entry) (i : Z) (sg : list Z) : list Z :=
  match t with
  | [] => sg
  | x :: t => fix_segs t (i + 1) (match e_mod x with Some m => zset sg m i | None => sg end)
  end.
Definition reify (d : dwfl) (ms : list (Z * Z)) : outcome dwfl :=
  let d0 := Dwfl (d_align d) (d_tbl d) (d_alloc d) (d_hasmod d) [] (t_ident d) (t_vaddr d) (t_off d) (t_ndx d) in
  ' (d', fixup) <- reify_loop d0 ms 0 (-1) (-1) false ;;
  Ok (if fixup then Dwfl (d_align d') (d_tbl d') (d_alloc d') (d_hasmod d') (fix_segs (d_tbl d') 0 (d_segs d')) (t_ident d') (t_vaddr d') (t_off d') (t_ndx d') else d').

(* segment.c 245-287, called with mod == NULL *)
Definition addrsegment (d : dwfl) (a : Z) : outcome Z :=
  idx <- lookup (d_tbl d) a (-1) ;;
  if 0 <=? idx then match znth (d_tbl d) idx with Some x => Ok (e_ndx x) | None => UB end else Ok idx.
(* The same, called with a place for the module: the new state, the segment, the module. *)
Definition addrsegment_mod (d : dwfl) (ms : list (Z * Z)) (a : Z) : outcome (dwfl * Z * option Z) :=
  d <- (if d_hasmod d then Ok d else reify d ms) ;;
  idx <- lookup (d_tbl d) a (-1) ;;
  if (idx <? 0) then Ok (d, idx, None) else
  match znth (d_tbl d) idx with
  | None => UB
  | Some x =>
    let m := if negb (d_hasmod d) then None else
      match e_mod x with
      | Some m => Some m
      | None => if (0 <? idx) && (e_addr x =? a) then
                  match znth (d_tbl d) (idx - 1) with
                  | Some y => match e_mod y with
                              | Some m => match znth ms m with Some (_, hi) => if hi =? a then Some m else None | None => None end
                              | None => None
                              end
                  | None => None
                  end
                else None
      end in
    Ok (d, e_ndx x, m)
  end.
(* dwfl_addrmodule.c 35-42 *)
Definition addrmodule (d : dwfl) (ms : list (Z * Z)) (a : Z) : outcome (dwfl * option Z) :=
  ' (d', _, m) <- addrsegment_mod d ms a ;; Ok (d', m).

(* A call of dwfl_report_segment *)
Record report := Rep { r_ndx : Z; r_vaddr : Z; r_memsz : Z; r_align : Z; r_off : Z; r_bias : Z; r_ident : Z }.
(* segment.c 319-322: from the end, skip the entries that start above *)
Fixpoint place (k : nat) (t : list entry) (i s : Z) : Z :=
  match k with
  | O => i
  | S k' => if i <=? 0 then i else match znth t (i - 1) with Some x => if s <? e_addr x then place k' t (i - 1) s else i | None => i end
  end.
(* segment.c 289-336 *)
Definition report_segment (d : dwfl) (r : report) : outcome (dwfl * Z) :=
  let ndx := if r_ndx r <? 0 then t_ndx d else r_ndx r in
  let al := if (1 <? r_align r) && ((d_align d <=? 1) || (r_align r <? d_align d)) then r_align r else d_align d in
  let t := d_tbl d in
  let s := seg_start al (u64 (r_bias r + r_vaddr r)) in
  let e := seg_end al (u64 (r_bias r + r_vaddr r + r_memsz r)) in
  let d1 := Dwfl al t (d_alloc d) false (d_segs d) (t_ident d) (t_vaddr d) (t_off d) (t_ndx d) in
  d2 <- (if negb (ndx =? t_ndx d) || (r_ident r =? 0) || negb (r_ident r =? t_ident d) || negb (s =? t_vaddr d) || negb (r_off r =? t_off d)
         then insert d1 (place (length t) t (zlen t) s) s e ndx else Ok d1) ;;
  Ok (Dwfl (d_align d2) (d_tbl d2) (d_alloc d2) (d_hasmod d2) (d_segs d2) (r_ident r) e (u64 (e - r_bias r - r_vaddr r + r_off r)) (ndx + 1), ndx).
Fixpoint report_all (d : dwfl) (rs : list report) : outcome dwfl :=
  match rs with [] => Ok d | r :: rs => ' (d, _) <- report_segment d r ;; report_all d rs end.

(* dwfl_getmodules.c 35-95: where an iteration that starts at "offset" begins (None: at its
   end), and the offset returned when the callback stops it after the module at position m *)
Definition getmodules_start (d : dwfl) (n offset : Z) : outcome (option Z) :=
  let lo := offset mod 4 in
  if lo =? 1 then (if n <? offset / 4 then Err (-1) else if offset / 4 =? n then Ok None else Ok (Some (offset / 4)))
  else if (lo =? 2) && d_hasmod d then
    let o := offset / 4 - 1 in
    if o =? zlen (d_tbl d) then Ok None else
    if (o <? 0) || (zlen (d_tbl d) <? o) then Err (-1) else
    match znth (d_tbl d) o with Some x => match e_mod x with Some m => Ok (Some m) | None => Err (-1) end | None => UB end
  else if negb (offset =? 0) then Err (-1) else if n =? 0 then Ok None else Ok (Some 0).
(* [count]: the variable "offset" of the C code, advanced once per module visited *)
Definition getmodules_stop (d : dwfl) (n count m : Z) : outcome Z :=
  if negb (d_hasmod d) then Ok (4 * count + 1) else
  if m + 1 =? n then Ok (4 * (zlen (d_tbl d) + 1) + 2) else
  match znth (d_segs d) (m + 1) with Some sg => Ok (4 * (sg + 1) + 2) | None => UB end.
