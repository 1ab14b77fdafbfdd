(* Units: libdw/dwarf_nextcu.c (__libdw_next_unit), libdw_findcu.c
   (__libdw_intern_next_unit, __libdw_findcu), libdwP.h
   (__libdw_first_die_from_cu_start).

   Simplifications: memory is always available.  The binary search tree of units
   (tsearch/tfind with findcu_cb) is the list of the interned units, in which the unit
   containing an offset is looked for.  For DWARF before 5 the type of the unit is left
   at the first guess (it is corrected from the unit's DIE, which is not modelled here);
   size_t has 64 bits. *)
From Verif Require Import Base DwModel.

Definition DW_UT_compile := 1. Definition DW_UT_type := 2. Definition DW_UT_partial := 3.
Definition DW_UT_skeleton := 4. Definition DW_UT_split_compile := 5. Definition DW_UT_split_type := 6.

(* libdwP.h:387-446 *)
Definition first_die_from_cu_start (off osize version utype : Z) : Z :=
  if version <? 5 then
    if negb (utype =? DW_UT_type) then u64 (off + 3 * osize - 4 + 3) else u64 (off + 4 * osize - 4 + 3 + 8)
  else
    let o := off + 3 * osize - 4 + 4 in
    if (utype =? DW_UT_skeleton) || (utype =? DW_UT_split_compile) || (utype =? DW_UT_type) || (utype =? DW_UT_split_type)
    then let o := o + 8 in
         u64 (if (utype =? DW_UT_type) || (utype =? DW_UT_split_type) then o + osize else o)
    else u64 o.

Record unit_hdr := UH {
  u_next : Z; u_hsize : Z; u_version : Z; u_type : Z; u_abbrev : Z;
  u_asize : Z; u_osize : Z; u_id8 : Z; u_subdie : Z }.
Inductive nu_result := NuEnd | NuUnit (u : unit_hdr).

Definition known_type (t : Z) : bool :=
  (t =? DW_UT_compile) || (t =? DW_UT_partial) || (t =? DW_UT_skeleton) || (t =? DW_UT_split_compile)
  || (t =? DW_UT_type) || (t =? DW_UT_split_type).

(* dwarf_nextcu.c:54-287; types: v4_debug_types, s the section, abb .debug_abbrev.  The
   end (return 1 with next_off = -1) is NuEnd, a return of -1 is Err. *)
Definition next_unit (fle types : bool) (s abb : option bytes) (off : Z) : outcome nu_result :=
  match s with
  | None => Ok NuEnd
  | Some d =>
    if (off =? two64 - 1) || (zlen d <=? u64 (off + 4)) then Ok NuEnd
    else
      len0 <- rd fle d off 4 ;;
      let p := off + 4 in
      if negb (len0 =? LENGTH_64_BIT) && (LENGTH_MIN_ESCAPE <=? len0) then Err DWARF_E_INVALID_DWARF
      else
      let osize := if len0 =? LENGTH_64_BIT then 8 else 4 in
      length <- (if len0 =? LENGTH_64_BIT then rd fle d p 8 else Ok len0) ;;
      let p := if len0 =? LENGTH_64_BIT then p + 8 else p in
      version <- rd fle d p 2 ;;
      let p := p + 2 in
      ut <- (if 5 <=? version then rd fle d p 1 else Ok 0) ;;
      let p := if 5 <=? version then p + 1 else p in
      let finish utype asize abbrev id8 subdie p :=
        let n := u64 (off + 2 * osize - 4 + length) in
        Ok (NuUnit (UH (if n <=? off then two64 - 1 else n) (p - off) version utype abbrev asize osize id8 subdie)) in
      if (version <? 2) || (5 <? version) || ((version =? 5) && negb (known_type ut))
      then finish ut 0 0 0 0 p
      else
      let utype := if version <? 5 then (if types then DW_UT_type else DW_UT_compile) else ut in
      if zlen d <=? first_die_from_cu_start off osize version utype then Ok NuEnd
      else
      a5 <- (if 5 <=? version then rd fle d p 1 else Ok 0) ;;
      let p := if 5 <=? version then p + 1 else p in
      abbrev <- read_offset fle d p osize abb 0 ;;
      let p := p + osize in
      a4 <- (if version <? 5 then rd fle d p 1 else Ok 0) ;;
      let p := if version <? 5 then p + 1 else p in
      let asize := if version <? 5 then a4 else a5 in
      if types || ((5 <=? version) && ((utype =? DW_UT_skeleton) || (utype =? DW_UT_split_compile)
                                       || (utype =? DW_UT_type) || (utype =? DW_UT_split_type)))
      then
        id8 <- rd fle d p 8 ;;
        let p := p + 8 in
        if types || (utype =? DW_UT_type) || (utype =? DW_UT_split_type) then
          subdie <- read_offset fle d p osize s 0 ;;
          let p := p + osize in
          if subdie <? p - off then Err DWARF_E_INVALID_DWARF
          else finish utype asize abbrev id8 subdie p
        else finish utype asize abbrev id8 0 p
      else finish utype asize abbrev 0 0 p
  end.

(* A unit record: libdwP.h:315-374 *)
Record cu := CU { c_start : Z; c_end : Z; c_version : Z; c_osize : Z; c_asize : Z; c_abbrev : Z; c_type : Z }.
(* next_cu_offset (or next_tu_offset) and the tree *)
Record units := Units { q_next : Z; q_tree : list cu }.
Definition units0 : units := Units 0 [].

(* libdw_findcu.c:97-215 __libdw_intern_next_unit.  None: NULL; next_cu_offset changes
   even then. *)
Definition intern_next_unit (fle types : bool) (s abb : option bytes) (q : units) : outcome (option cu * units) :=
  match next_unit fle types s abb (q_next q), s with
  | UB, _ => UB
  | Fuel, _ => Fuel
  | Err _, _ => Ok (None, q)
  | Ok NuEnd, _ => Ok (None, Units (two64 - 1) (q_tree q))
  | Ok (NuUnit u), None => UB
  | Ok (NuUnit u), Some d =>
    if (u_version u <? 2) || (5 <? u_version u) || (types && negb (u_version u =? 4))
    then Ok (None, Units (u_next u) (q_tree q))
    else
      let asize := if negb (u_asize u =? 4) && negb (u_asize u =? 8) then 8 else u_asize u in
      let nxt := if zlen d <? u_next u then zlen d else u_next u in
      let c := CU (q_next q) nxt (u_version u) (u_osize u) asize (u_abbrev u)
                  (if types then DW_UT_type else if u_version u <? 5 then DW_UT_compile else u_type u) in
      Ok (Some c, Units nxt (q_tree q ++ [c]))
  end.

(* libdw_findcu.c:38-61 findcu_cb with the search value as first argument *)
Definition in_cu (start : Z) (c : cu) : bool := (c_start c <=? start) && (start <? c_end c).

(* libdw_findcu.c:217-252 __libdw_findcu; k bounds the number of units *)
Fixpoint findcu_loop (k : nat) (fle types : bool) (s abb : option bytes) (q : units) (start : Z) : outcome (option cu * units) :=
  match k with
  | O => Fuel
  | S k =>
    '(r, q) <- intern_next_unit fle types s abb q ;;
    match r with
    | None => Ok (None, q)
    | Some c => if (start <? q_next q) || (start =? c_start c) then Ok (Some c, q)
                else findcu_loop k fle types s abb q start
    end
  end.
Definition findcu (k : nat) (fle types : bool) (s abb : option bytes) (q : units) (start : Z) : outcome (option cu * units) :=
  match find (in_cu start) (q_tree q) with
  | Some c => Ok (Some c, q)
  | None => if start <? q_next q then Ok (None, q) else findcu_loop k fle types s abb q start
  end.

(* The loop of a user: while (dwarf_next_unit (dbg, off, &next, ...) == 0) off = next;
   the offsets of the units seen, and how it ended. *)
Fixpoint walk (k : nat) (fle types : bool) (s abb : option bytes) (off : Z) : outcome (list Z) :=
  match k with
  | O => Fuel
  | S k =>
    match next_unit fle types s abb off with
    | Ok NuEnd => Ok []
    | Ok (NuUnit u) => l <- walk k fle types s abb (u_next u) ;; Ok (off :: l)
    | Err n => Err n
    | UB => UB
    | Fuel => Fuel
    end
  end.
