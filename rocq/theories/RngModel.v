(* libdw/dwarf_ranges.c, libdw/dwarf_getlocation.c:640-980, libdw/libdwP.h:1103-1265,
   libdw/dwarf_haspc.c, dwarf_lowpc.c, dwarf_highpc.c: range lists and location lists.

   Pointers into a section are offsets from its d_buf.  The unit whose lists are read and the
   sections belong to one file (no split unit whose lists are in the skeleton's file: the calls
   of __libdw_find_split_unit are not modelled).  There are no relocations.  The error code for a
   missing section is that of the DWARF 4 section in every version. *)
From Verif Require Import Base LebModel DwModel FormModel.

Definition DWARF_E_NO_DEBUG_RANGES : Z := 40.
Definition DWARF_E_NO_DEBUG_LOC : Z := 31.
(* the sections and their formats; KGnu is .debug_loc of a DWARF 4 split unit *)
Inductive lkind := KPair | KRng | KLoc | KGnu.
Inductive item := IPair (b e p : Z) | IBase (base p : Z) | IEnd (p : Z).

Section Lists.
Variable u : cu.                      (* the unit *)
Variable addr_off : option Z.         (* its address base *)
Variable debug_addr : option bytes.   (* .debug_addr *)

(* "if (addrend - addr < 1) goto invalid; get_uleb128 (..., addr, addrend)" *)
Definition uleb (d : bytes) (p : Z) : outcome (Z * Z) :=
  if zlen d - p <? 1 then Err DWARF_E_INVALID_DWARF else get_uleb128 d p (zlen d).
(* "get_uleb128 (addr_idx, ...); if (__libdw_addrx (cu, addr_idx, ...) != 0) return -1" *)
Definition uleb_addrx (d : bytes) (p : Z) : outcome (Z * Z) :=
  ' (i, q) <- uleb d p ;; a <- addrx u addr_off debug_addr i ;; Ok (a, q).
(* "if (addrend - addr < n) goto invalid" before n bytes are read as one number *)
Definition fixed (d : bytes) (p n : Z) : outcome (Z * Z) :=
  if zlen d - p <? n then Err DWARF_E_INVALID_DWARF else v <- rd (u_fle u) d p n ;; Ok (v, p + n).

(* the cases of the three switch statements in dwarf_ranges.c:44-378 *)
Definition e_basex d p := ' (b, q) <- uleb_addrx d p ;; Ok (IBase b q).
Definition e_startx_endx d p := ' (b, q) <- uleb_addrx d p ;; ' (e, r) <- uleb_addrx d q ;; Ok (IPair b e r).
Definition e_startx_length d p := ' (b, q) <- uleb_addrx d p ;; ' (n, r) <- uleb d q ;; Ok (IPair b (u64 (b + n)) r).
Definition e_offset_pair d p base := ' (b, q) <- uleb d p ;; ' (e, r) <- uleb d q ;; Ok (IPair (u64 (b + base)) (u64 (e + base)) r).
Definition e_base d p := ' (b, q) <- fixed d p (u_asize u) ;; Ok (IBase b q).
Definition e_start_end d p :=
  if zlen d - p <? 2 * u_asize u then Err DWARF_E_INVALID_DWARF
  else ' (b, q) <- fixed d p (u_asize u) ;; ' (e, r) <- fixed d q (u_asize u) ;; Ok (IPair b e r).
Definition e_start_length d p := ' (b, q) <- fixed d p (u_asize u) ;; ' (n, r) <- uleb d q ;; Ok (IPair b (u64 (b + n)) r).
Definition e_gnu_start_length d p := ' (b, q) <- uleb_addrx d p ;; ' (n, r) <- fixed d q 4 ;; Ok (IPair b (u64 (b + n)) r).

(* dwarf_ranges.c:44-378 __libdw_read_begin_end_pair_inc *)
Definition read_pair (k : lkind) (d : bytes) (p base : Z) : outcome item :=
  match k with
  | KPair =>
    let w := u_asize u in
    let escape := if w =? 8 then two64 - 1 else two32 - 1 in
    if zlen d - p <? w * 2 then Err DWARF_E_INVALID_DWARF
    else b <- rd (u_fle u) d p w ;; e <- rd (u_fle u) d (p + w) w ;;
         let q := p + w * 2 in
         if b =? escape then if e =? escape then Err DWARF_E_INVALID_DWARF else Ok (IBase e q)
         else if (b =? 0) && (e =? 0) then Ok (IEnd q)
         else Ok (IPair (u64 (b + base)) (u64 (e + base)) q)
  | KRng =>
    ' (code, p) <- fixed d p 1 ;;
    if code =? 0 then Ok (IEnd p)
    else if code =? 1 then e_basex d p
    else if code =? 2 then e_startx_endx d p
    else if code =? 3 then e_startx_length d p
    else if code =? 4 then e_offset_pair d p base
    else if code =? 5 then e_base d p
    else if code =? 6 then e_start_end d p
    else if code =? 7 then e_start_length d p
    else Err DWARF_E_INVALID_DWARF
  | KLoc =>
    ' (code, p) <- fixed d p 1 ;;
    if code =? 0 then Ok (IEnd p)
    else if code =? 1 then e_basex d p
    else if code =? 2 then e_startx_endx d p
    else if code =? 3 then e_startx_length d p
    else if code =? 4 then e_offset_pair d p base
    else if code =? 5 then Ok (IPair 0 (two64 - 1) p)
    else if code =? 6 then e_base d p
    else if code =? 7 then e_start_end d p
    else if code =? 8 then e_start_length d p
    else Err DWARF_E_INVALID_DWARF
  | KGnu =>
    ' (code, p) <- fixed d p 1 ;;
    if code =? 0 then Ok (IEnd p)
    else if code =? 1 then e_basex d p
    else if code =? 2 then e_startx_endx d p
    else if code =? 3 then e_gnu_start_length d p
    else Err DWARF_E_INVALID_DWARF
  end.

(* libdwP.h:1117-1185 __libdw_cu_ranges_base and :1189-1265 __libdw_cu_locs_base for a version 5
   unit, first use (the result is cached).  attr_base is what the unit's DW_AT_rnglists_base or
   DW_AT_loclists_base gave, 0 when there is none.  All reads go through rd, which is UB outside
   the section. *)
Definition lists_base (attr_base : Z) (sec : option bytes) : outcome Z :=
  match sec with
  | Some d =>
    if attr_base =? 0 then
      let fle := u_fle u in
      let header (osz p len : Z) :=
        if (zlen d - 8 <? p) || (len <? 8) || (zlen d - p <? len) then Ok 0
        else ver <- rd fle d p 2 ;;
             if negb (ver =? 5) then Ok 0
             else asz <- rd fle d (p + 2) 1 ;;
                  if negb (asz =? 4) && negb (asz =? 8) then Ok 0
                  else ssz <- rd fle d (p + 3) 1 ;;
                       if negb (ssz =? 0) then Ok 0
                       else cnt <- rd fle d (p + 4) 4 ;;
                            if cnt <=? 0 then Ok 0
                            else if len - 8 <? u32 (cnt * osz) then Ok 0
                            else Ok (p + 8)
      in len <- rd fle d 0 4 ;;
         if len =? two32 - 1 then
           if zlen d - 8 <? 4 then Ok 0
           else len <- rd fle d 4 8 ;; header 8 12 len
         else header 4 4 len
    else Ok attr_base
  | None => Ok attr_base
  end.

(* dwarf_formudata.c:38-122 __libdw_formptr without its second result.  A pointer computed from
   an offset above 2^63 lies before the section: UB. *)
Definition formptr (a : attr) (sec : option bytes) (err_nodata : Z) : outcome Z :=
  match sec with
  | None => Err err_nodata
  | Some d =>
    off <- (if a_form a =? FORM_sec_offset then read_offset (u_fle u) (u_mem u) (a_valp a) (u_osize u) sec 0
            else if 3 <? u_ver u then Err DWARF_E_INVALID_DWARF
            else if (a_form a =? FORM_data4) || (a_form a =? FORM_data8) then
              read_offset (u_fle u) (u_mem u) (a_valp a) (if a_form a =? FORM_data4 then 4 else 8) sec 0
            else formudata u a true) ;;
    if two63 <=? off then UB else if zlen d <=? off then Err DWARF_E_INVALID_DWARF else Ok off
  end.
(* dwarf_ranges.c:381-462 and dwarf_getlocation.c:715-796 initial_offset; indexed is
   DW_FORM_rnglistx or DW_FORM_loclistx.  *)
Definition initial_offset (a : attr) (indexed : Z) (attr_base : Z) (sec : option bytes) (err_nodata : Z) : outcome Z :=
  if a_form a =? indexed then
    if u_endp u <=? a_valp a then Err DWARF_E_INVALID_DWARF
    else ' (idx, _) <- get_uleb128 (u_mem u) (a_valp a) (u_endp u) ;;
         match sec with
         | None => Err err_nodata
         | Some d =>
           base <- lists_base attr_base sec ;;
           if zlen d <? u_osize u then Err DWARF_E_INVALID_OFFSET
           else if zlen d - u_osize u <? base then Err DWARF_E_INVALID_OFFSET
           else if (zlen d - u_osize u - base) / u_osize u <? idx then Err DWARF_E_INVALID_OFFSET
           else v <- rd (u_fle u) d (base + idx * u_osize u) (if u_osize u =? 4 then 4 else 8) ;; Ok (u64 (v + base))
         end
  else formptr a sec err_nodata.

(* dwarf_ranges.c:530-556: "next:" and the switch after it; the loop is bounded by the section's
   size plus one (every turn reads at least one byte) *)
Fixpoint next_pair (fuel : nat) (k : lkind) (d : bytes) (p base : Z) : outcome (option (Z * Z * Z * Z)) :=
  match fuel with
  | O => Fuel
  | S fuel =>
    it <- read_pair k d p base ;;
    match it with
    | IPair b e q => Ok (Some (b, e, q, base))
    | IBase base' q => next_pair fuel k d q base'
    | IEnd _ => Ok None
    end
  end.
Definition section_fuel (d : bytes) : nat := S (List.length d).

(* the attributes dwarf_ranges looks at *)
Record pcs := Pcs { at_low : option attr; at_high : option attr; at_ranges : option attr }.
(* dwarf_lowpc.c:37-47, dwarf_highpc.c:37-71 (without the dwarf_attr_integrate of a split unit) *)
Definition lowpc (s : pcs) : outcome Z :=
  match at_low s with None => Err 0 | Some a => formaddr u a addr_off debug_addr end.
Definition or_else {A} (o : outcome A) (k : outcome A) : outcome A := match o with Err _ => k | _ => o end.
Definition highpc (s : pcs) : outcome Z :=
  match at_high s with
  | None => Err 0
  | Some a => or_else (formaddr u a addr_off debug_addr) (lo <- lowpc s ;; n <- formudata u a true ;; Ok (u64 (lo + n)))
  end.
(* dwarf_getlocation.c:684-712 __libdw_cu_base_address; low and entry are the unit DIE's
   DW_AT_low_pc and DW_AT_entry_pc.  The caller fails when the result is -1. *)
Definition base_address (low entry : option attr) : outcome Z :=
  let try a k := match a with None => k | Some a => or_else (formaddr u a addr_off debug_addr) k end in
  b <- try low (try entry (Ok 0)) ;; if b =? two64 - 1 then Err 0 else Ok b.

(* dwarf_ranges.c:464-561.  unit_low, unit_entry: attributes of the unit DIE; sec: .debug_ranges
   or .debug_rnglists.  The result is begin, end, the next offset and the new base. *)
Definition ranges (s : pcs) (unit_low unit_entry : option attr) (attr_base : Z) (sec : option bytes) (offset base : Z)
  : outcome (option (Z * Z * Z * Z)) :=
  let rest :=
    if offset =? 1 then Ok None
    else let k := if u_ver u <? 5 then KPair else KRng in
         let go off base := match sec with
                            | None => UB
                            | Some d => if two63 <=? off then UB else next_pair (section_fuel d) k d off base
                            end in
         if offset =? 0 then
           match at_ranges s with
           | None => Ok None
           | Some a => base <- base_address unit_low unit_entry ;; off <- initial_offset a FORM_rnglistx attr_base sec DWARF_E_NO_DEBUG_RANGES ;; go off base
           end
         else _ <- offset_in_section sec offset 1 ;; go offset base in
  if offset =? 0 then or_else (h <- highpc s ;; l <- lowpc s ;; Ok (Some (l, h, 1, base))) rest
  else rest.
(* the caller's loop, as in dwarf_haspc.c:37-52 *)
Fixpoint ranges_all (fuel : nat) (s : pcs) (unit_low unit_entry : option attr) (attr_base : Z) (sec : option bytes) (offset base : Z) : outcome (list (Z * Z)) :=
  match fuel with
  | O => Fuel
  | S fuel => r <- ranges s unit_low unit_entry attr_base sec offset base ;;
    match r with
    | None => Ok []
    | Some (b, e, off, base) => l <- ranges_all fuel s unit_low unit_entry attr_base sec off base ;; Ok ((b, e) :: l)
    end
  end.
(* dwarf_haspc.c:37-52 *)
Fixpoint haspc (fuel : nat) (s : pcs) (unit_low unit_entry : option attr) (attr_base : Z) (sec : option bytes) (offset base pc : Z) : outcome bool :=
  match fuel with
  | O => Fuel
  | S fuel => r <- ranges s unit_low unit_entry attr_base sec offset base ;;
    match r with
    | None => Ok false
    | Some (b, e, off, base) => if (b <=? pc) && (pc <? e) then Ok true else haspc fuel s unit_low unit_entry attr_base sec off base pc
    end
  end.

(* dwarf_getlocation.c:798-862 getlocations_addr up to the call of getlocation: the result is
   begin, end, where the expression starts and its length, the next offset and the new base.
   address = 2^64-1 asks for every entry. *)
Record locent := Locent { le_begin : Z; le_end : Z; le_data : Z; le_len : Z; le_next : Z; le_base : Z }.
Definition loc_block (k : lkind) (d : bytes) (p : Z) : outcome (Z * Z) :=
  match k with KPair | KGnu => ' (n, q) <- fixed d p 2 ;; Ok (n, q) | _ => uleb d p end.
Fixpoint next_loc (fuel : nat) (k : lkind) (d : bytes) (p base address : Z) : outcome (option locent) :=
  match fuel with
  | O => Fuel
  | S fuel =>
    it <- read_pair k d p base ;;
    match it with
    | IBase base' q => next_loc fuel k d q base' address
    | IEnd _ => Ok None
    | IPair b e q =>
      ' (n, q) <- loc_block k d q ;;
      if zlen d - q <? s64 n then Err DWARF_E_INVALID_DWARF
      else let q' := q + s64 n in
           if negb (address =? two64 - 1) && ((address <? b) || (e <=? address)) then next_loc fuel k d q' base address
           else Ok (Some (Locent b e q n q' base))
    end
  end.
(* dwarf_getlocation.c:917-980 dwarf_getlocations for an attribute that is not
   DW_AT_data_member_location; LBlock p n: a single expression in the unit's section *)
Inductive located := LBlock (p n : Z) | LList (e : locent) | LEnd.
Definition locations (split : bool) (a : attr) (unit_low unit_entry : option attr) (attr_base : Z) (sec : option bytes) (offset base : Z) : outcome located :=
  let k := if u_ver u <? 5 then if split then KGnu else KPair else KLoc in
  let go off base := match sec with
                     | None => UB
                     | Some d => if two63 <=? off then UB
                                 else r <- next_loc (section_fuel d) k d off base (two64 - 1) ;;
                                      Ok (match r with Some e => LList e | None => LEnd end)
                     end in
  if offset =? 1 then Ok LEnd
  else if offset =? 0 then
    let list := base <- base_address unit_low unit_entry ;; off <- initial_offset a FORM_loclistx attr_base sec DWARF_E_NO_DEBUG_LOC ;; go off base in
    if a_form a =? FORM_data16 then list
    else match formblock u a with
         | Ok (p, n) => Ok (LBlock p n)
         | Err x => if x =? DWARF_E_NO_BLOCK then list else Err x
         | UB => UB
         | Fuel => Fuel
         end
  else go offset base.
Fixpoint locations_all (fuel : nat) (split : bool) (a : attr) (unit_low unit_entry : option attr) (attr_base : Z) (sec : option bytes) (offset base : Z) : outcome (list located) :=
  match fuel with
  | O => Fuel
  | S fuel => r <- locations split a unit_low unit_entry attr_base sec offset base ;;
    match r with
    | LEnd => Ok []
    | LBlock _ _ => l <- locations_all fuel split a unit_low unit_entry attr_base sec 1 base ;; Ok (r :: l)
    | LList e => l <- locations_all fuel split a unit_low unit_entry attr_base sec (le_next e) (le_base e) ;; Ok (r :: l)
    end
  end.
(* dwarf_getlocation.c:864-915: the loop of dwarf_getlocation_addr over a list; max locations are
   wanted *)
Fixpoint loc_addr_loop (max : nat) (k : lkind) (d : bytes) (off base address : Z) : outcome (list locent) :=
  match max with
  | O => Ok []
  | S max => r <- next_loc (section_fuel d) k d off base address ;;
    match r with
    | None => Ok []
    | Some e => l <- loc_addr_loop max k d (le_next e) (le_base e) address ;; Ok (e :: l)
    end
  end.
Definition location_addr (split : bool) (a : attr) (unit_low unit_entry : option attr) (attr_base : Z) (sec : option bytes) (address : Z) (max : nat) : outcome (list locent) :=
  base <- base_address unit_low unit_entry ;;
  off <- initial_offset a FORM_loclistx attr_base sec DWARF_E_NO_DEBUG_LOC ;;
  match sec with
  | None => match max with O => Ok [] | _ => UB end
  | Some d => if two63 <=? off then UB
              else loc_addr_loop max (if u_ver u <? 5 then if split then KGnu else KPair else KLoc) d off base address
  end.
End Lists.
