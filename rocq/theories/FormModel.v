(* Model of attribute values: libdw/libdw_form.c, __libdw_form_val_len in libdwP.h and the
   readers dwarf_form{ref,udata,sdata,block,flag,addr,string}.c.
   A pointer is an offset into the bytes of the section the unit lies in; reading outside
   those bytes is UB.  Byte order conversions are the ones of DwModel (proved for the
   macros in LebProps). *)
From Verif Require Import Base LebModel DwModel.

(* dwarf.h:368-420 *)
Definition FORM_addr := 1.          Definition FORM_block2 := 3.      Definition FORM_block4 := 4.
Definition FORM_data2 := 5.         Definition FORM_data4 := 6.       Definition FORM_data8 := 7.
Definition FORM_string := 8.        Definition FORM_block := 9.       Definition FORM_block1 := 10.
Definition FORM_data1 := 11.        Definition FORM_flag := 12.       Definition FORM_sdata := 13.
Definition FORM_strp := 14.         Definition FORM_udata := 15.      Definition FORM_ref_addr := 16.
Definition FORM_ref1 := 17.         Definition FORM_ref2 := 18.       Definition FORM_ref4 := 19.
Definition FORM_ref8 := 20.         Definition FORM_ref_udata := 21.  Definition FORM_indirect := 22.
Definition FORM_sec_offset := 23.   Definition FORM_exprloc := 24.    Definition FORM_flag_present := 25.
Definition FORM_strx := 26.         Definition FORM_addrx := 27.      Definition FORM_ref_sup4 := 28.
Definition FORM_strp_sup := 29.     Definition FORM_data16 := 30.     Definition FORM_line_strp := 31.
Definition FORM_ref_sig8 := 32.     Definition FORM_implicit_const := 33.
Definition FORM_loclistx := 34.     Definition FORM_rnglistx := 35.   Definition FORM_ref_sup8 := 36.
Definition FORM_strx1 := 37.        Definition FORM_strx2 := 38.      Definition FORM_strx3 := 39.
Definition FORM_strx4 := 40.        Definition FORM_addrx1 := 41.     Definition FORM_addrx2 := 42.
Definition FORM_addrx3 := 43.       Definition FORM_addrx4 := 44.
Definition FORM_GNU_addr_index := 7937.  Definition FORM_GNU_str_index := 7938.
Definition FORM_GNU_ref_alt := 7968.     Definition FORM_GNU_strp_alt := 7969.

(* The parts of struct Dwarf_CU used here (libdwP.h:290-360): the section's bytes, the
   unit's first byte and the byte after its last one, its parameters, and the byte order. *)
Record cu := Cu { u_mem : bytes; u_startp : Z; u_endp : Z; u_asize : Z; u_osize : Z; u_ver : Z; u_fle : bool }.

(* libdwP.h:684-709 the table form_lengths; an absent entry is 0. *)
Definition form_lengths (form : Z) : Z :=
  if (form =? FORM_flag_present) || (form =? FORM_implicit_const) then 128
  else if (form =? FORM_flag) || (form =? FORM_data1) || (form =? FORM_ref1) || (form =? FORM_addrx1) || (form =? FORM_strx1) then 1
  else if (form =? FORM_data2) || (form =? FORM_ref2) || (form =? FORM_addrx2) || (form =? FORM_strx2) then 2
  else if (form =? FORM_addrx3) || (form =? FORM_strx3) then 3
  else if (form =? FORM_data4) || (form =? FORM_ref4) || (form =? FORM_ref_sup4) || (form =? FORM_addrx4) || (form =? FORM_strx4) then 4
  else if (form =? FORM_ref_sig8) || (form =? FORM_data8) || (form =? FORM_ref8) || (form =? FORM_ref_sup8) then 8
  else if form =? FORM_data16 then 16
  else 0.
Definition size_form_lengths : Z := FORM_addrx4 + 1.

(* memchr (p, 0, n): the bytes are read one after the other until one is zero. *)
Fixpoint memchr0 (fuel : nat) (mem : bytes) (p n : Z) : outcome (option Z) :=
  if n <=? 0 then Ok None
  else match znth mem p with
       | None => UB
       | Some x => if x =? 0 then Ok (Some p)
                   else match fuel with O => Fuel | S k => memchr0 k mem (p + 1) (n - 1) end
       end.

(* libdwP.h:677-726 __libdw_form_val_len with libdw_form.c:40-140
   __libdw_form_val_compute_len inlined.  (size_t) -1 is Err. *)
Fixpoint form_val_len (fuel : nat) (u : cu) (form valp : Z) : outcome Z :=
  match fuel with
  | O => Fuel
  | S k =>
    let left := u64 (u_endp u - valp) in
    let len := if form <? size_form_lengths then form_lengths form else 0 in
    if negb (len =? 0) then
      let len := Z.land len 127 in
      if left <? len then Err DWARF_E_INVALID_DWARF else Ok len
    else
      let checked (result : Z) := if left <? result then Err DWARF_E_INVALID_DWARF else Ok result in
      if form =? FORM_addr then checked (u_asize u)
      else if form =? FORM_ref_addr then checked (if u_ver u =? 2 then u_asize u else u_osize u)
      else if (form =? FORM_strp) || (form =? FORM_strp_sup) || (form =? FORM_line_strp) || (form =? FORM_sec_offset)
              || (form =? FORM_GNU_ref_alt) || (form =? FORM_GNU_strp_alt) then checked (u_osize u)
      else if form =? FORM_block1 then
        if left <? 1 then Err DWARF_E_INVALID_DWARF
        else v <- rd (u_fle u) (u_mem u) valp 1 ;; checked (v + 1)
      else if form =? FORM_block2 then
        if left <? 2 then Err DWARF_E_INVALID_DWARF
        else v <- rd (u_fle u) (u_mem u) valp 2 ;; checked (v + 2)
      else if form =? FORM_block4 then
        if left <? 4 then Err DWARF_E_INVALID_DWARF
        else v <- rd (u_fle u) (u_mem u) valp 4 ;; checked (u32 (v + 4))     (* uint32_t arithmetic *)
      else if (form =? FORM_block) || (form =? FORM_exprloc) then
        ' (v, q) <- get_uleb128 (u_mem u) valp (u_endp u) ;;
        checked (u64 (v + (q - valp)))
      else if form =? FORM_string then
        r <- memchr0 (S (length (u_mem u))) (u_mem u) valp left ;;
        match r with None => Err DWARF_E_INVALID_DWARF | Some e => checked (e - valp + 1) end
      else if (form =? FORM_sdata) || (form =? FORM_udata) || (form =? FORM_ref_udata) || (form =? FORM_addrx) || (form =? FORM_loclistx)
              || (form =? FORM_rnglistx) || (form =? FORM_strx) || (form =? FORM_GNU_addr_index) || (form =? FORM_GNU_str_index) then
        ' (v, q) <- get_uleb128 (u_mem u) valp (u_endp u) ;;
        checked (q - valp)
      else if form =? FORM_indirect then
        ' (v, q) <- get_uleb128 (u_mem u) valp (u_endp u) ;;
        r <- form_val_len k u (u32 v) q ;;                                   (* unsigned int form *)
        if r =? two64 - 1 then Err 0 else checked (u64 (r + (q - valp)))
      else Err DWARF_E_INVALID_DWARF
  end.
(* Every level of DW_FORM_indirect moves the pointer, so this is enough. *)
Definition val_len (u : cu) (form valp : Z) : outcome Z := form_val_len (S (length (u_mem u))) u form valp.

(* ------------------------------------------------------------------ *)
(* Readers.  An attribute is a name, a form and the pointer to the value; for
   DW_FORM_implicit_const the pointer goes into .debug_abbrev, [a_abbrev] holds those
   bytes. *)
Record attr := Attr { a_code : Z; a_form : Z; a_valp : Z; a_abbrev : bytes }.
(* libdwP.h:95-145 *)
Definition DWARF_E_NO_STRING := 17.
Definition DWARF_E_NO_DEBUG_STR := 18.
Definition DWARF_E_NO_DEBUG_LINE_STR := 19.
Definition DWARF_E_NO_STR_OFFSETS := 20.
Definition DWARF_E_NO_ADDR := 21.
Definition DWARF_E_NO_CONSTANT := 22.
Definition DWARF_E_INVALID_REFERENCE := 24.
Definition DWARF_E_NO_BLOCK := 34.
Definition DWARF_E_NO_FLAG := 38.
Definition DWARF_E_NO_ALT_DEBUGLINK := 43.
Definition DWARF_E_NO_DEBUG_ADDR := 47.

Definition in_unit (u : cu) (datap n : Z) : bool := negb (u_endp u <? datap + n).

(* dwarf_formref.c:37-101 __libdw_formref; valp is not NULL *)
Definition formref (u : cu) (a : attr) : outcome Z :=
  let f := a_form a in
  let d := a_valp a in
  let get (n : Z) := if in_unit u d n then rd (u_fle u) (u_mem u) d n else Err DWARF_E_INVALID_DWARF in
  if f =? FORM_ref1 then get 1 else if f =? FORM_ref2 then get 2 else if f =? FORM_ref4 then get 4 else if f =? FORM_ref8 then get 8
  else if f =? FORM_ref_udata then
    if in_unit u d 1 then ' (v, _) <- get_uleb128 (u_mem u) d (u_endp u) ;; Ok v else Err DWARF_E_INVALID_DWARF
  else if (f =? FORM_ref_addr) || (f =? FORM_ref_sig8) || (f =? FORM_GNU_ref_alt) || (f =? FORM_ref_sup4) || (f =? FORM_ref_sup8)
  then Err DWARF_E_INVALID_REFERENCE else Err DWARF_E_NO_REFERENCE.

(* dwarf_formudata.c:327, 333, 339, 345 etc.: "datap >= endp - n" *)
Definition before_end (u : cu) (datap n : Z) : bool := negb (u_endp u - n <=? datap).
(* the index forms of dwarf_formudata.c:317-348, dwarf_formaddr.c:101-134 and
   dwarf_formstring.c:96-129: uleb, 1, 2, 3 or 4 bytes *)
Definition index_value (u : cu) (d : Z) (uleb : bool) (n : Z) : outcome Z :=
  if uleb then if u_endp u <=? d then Err DWARF_E_INVALID_DWARF else ' (v, _) <- get_uleb128 (u_mem u) d (u_endp u) ;; Ok v
  else if before_end u d n then rd (u_fle u) (u_mem u) d n else Err DWARF_E_INVALID_DWARF.

(* dwarf_formudata.c:138-356 dwarf_formudata.  DW_FORM_sec_offset and, before DWARF 4, data4
   and data8 of the attributes that may hold a section offset (lines 165-296) are not
   modelled: [plain] tells that the attribute is none of those; for it DW_FORM_sec_offset is
   refused. *)
Definition formudata (u : cu) (a : attr) (plain : bool) : outcome Z :=
  let f := a_form a in
  let d := a_valp a in
  let get (n : Z) := if in_unit u d n then rd (u_fle u) (u_mem u) d n else Err DWARF_E_INVALID_DWARF in
  if f =? FORM_data1 then get 1 else if f =? FORM_data2 then get 2
  else if (f =? FORM_data4) || (f =? FORM_data8) then
    if plain then read_address (u_fle u) (u_mem u) d (if f =? FORM_data4 then 4 else 8) else UB
  else if f =? FORM_sec_offset then if plain then Err DWARF_E_INVALID_DWARF else UB
  else if f =? FORM_sdata then
    if in_unit u d 1 then ' (v, _) <- get_sleb128 (u_mem u) d (u_endp u) ;; Ok (u64 v) else Err DWARF_E_INVALID_DWARF
  else if (f =? FORM_udata) || (f =? FORM_rnglistx) || (f =? FORM_loclistx) then
    if in_unit u d 1 then ' (v, _) <- get_uleb128 (u_mem u) d (u_endp u) ;; Ok v else Err DWARF_E_INVALID_DWARF
  else if f =? FORM_implicit_const then ' (v, _) <- get_sleb128_unchecked (a_abbrev a) d ;; Ok (u64 v)
  else if (f =? FORM_GNU_addr_index) || (f =? FORM_addrx) then index_value u d true 0
  else if f =? FORM_addrx1 then index_value u d false 1
  else if f =? FORM_addrx2 then index_value u d false 2
  else if f =? FORM_addrx3 then index_value u d false 3
  else if f =? FORM_addrx4 then index_value u d false 4
  else Err DWARF_E_NO_CONSTANT.

(* dwarf_formsdata.c:38-100 *)
Definition formsdata (u : cu) (a : attr) : outcome Z :=
  let f := a_form a in
  let d := a_valp a in
  let get (n : Z) := if in_unit u d n then rd (u_fle u) (u_mem u) d n else Err DWARF_E_INVALID_DWARF in
  if f =? FORM_data1 then v <- get 1 ;; Ok (s8 v)
  else if f =? FORM_data2 then v <- get 2 ;; Ok (s16 v)
  else if f =? FORM_data4 then v <- get 4 ;; Ok (s32 v)
  else if f =? FORM_data8 then v <- get 8 ;; Ok (s64 v)
  else if f =? FORM_sdata then
    if in_unit u d 1 then ' (v, _) <- get_sleb128 (u_mem u) d (u_endp u) ;; Ok v else Err DWARF_E_INVALID_DWARF
  else if f =? FORM_udata then
    if in_unit u d 1 then ' (v, _) <- get_uleb128 (u_mem u) d (u_endp u) ;; Ok (s64 v) else Err DWARF_E_INVALID_DWARF
  else if f =? FORM_implicit_const then ' (v, _) <- get_sleb128_unchecked (a_abbrev a) d ;; Ok v
  else Err DWARF_E_NO_CONSTANT.

(* dwarf_formblock.c:38-102: data pointer and length *)
Definition formblock (u : cu) (a : attr) : outcome (Z * Z) :=
  let f := a_form a in
  let d := a_valp a in
  let fits (p n : Z) := if u64 (u_endp u - p) <? n then Err DWARF_E_INVALID_DWARF else Ok (p, n) in
  let get (n : Z) := if u_endp u - d <? n then Err DWARF_E_INVALID_DWARF else v <- rd (u_fle u) (u_mem u) d n ;; fits (d + n) v in
  if f =? FORM_block1 then get 1 else if f =? FORM_block2 then get 2 else if f =? FORM_block4 then get 4
  else if (f =? FORM_block) || (f =? FORM_exprloc) then
    if u_endp u - d <? 1 then Err DWARF_E_INVALID_DWARF
    else ' (v, q) <- get_uleb128 (u_mem u) d (u_endp u) ;; fits q v
  else if f =? FORM_data16 then if u_endp u - d <? 16 then Err DWARF_E_INVALID_DWARF else fits d 16
  else Err DWARF_E_NO_BLOCK.

(* dwarf_formflag.c:38-59 *)
Definition formflag (u : cu) (a : attr) : outcome bool :=
  if a_form a =? FORM_flag_present then Ok true
  else if negb (a_form a =? FORM_flag) then Err DWARF_E_NO_FLAG
  else v <- rd (u_fle u) (u_mem u) (a_valp a) 1 ;; Ok (negb (v =? 0)).

(* dwarf_formaddr.c:37-77 __libdw_addrx; addr_off is __libdw_cu_addr_base (libdwP.h), None when
   that failed; debug_addr is the section *)
Definition addrx (u : cu) (addr_off : option Z) (debug_addr : option bytes) (idx : Z) : outcome Z :=
  match addr_off, debug_addr with
  | None, _ => Err 0
  | _, None => Err DWARF_E_NO_DEBUG_ADDR
  | Some off, Some d =>
    if zlen d <? u_asize u then Err DWARF_E_INVALID_OFFSET
    else if zlen d - u_asize u <? off then Err DWARF_E_INVALID_OFFSET
    else let idx := u64 (idx * u_asize u) in
         if u64 (zlen d - u_asize u - off) <? idx then Err DWARF_E_INVALID_OFFSET
         else rd (u_fle u) d (off + idx) (if u_asize u =? 4 then 4 else 8)
  end.
(* dwarf_formaddr.c:79-147 *)
Definition formaddr (u : cu) (a : attr) (addr_off : option Z) (debug_addr : option bytes) : outcome Z :=
  let f := a_form a in
  let d := a_valp a in
  if f =? FORM_addr then read_address (u_fle u) (u_mem u) d (u_asize u)
  else idx <- (if (f =? FORM_GNU_addr_index) || (f =? FORM_addrx) then index_value u d true 0
               else if f =? FORM_addrx1 then index_value u d false 1
               else if f =? FORM_addrx2 then index_value u d false 2
               else if f =? FORM_addrx3 then index_value u d false 3
               else if f =? FORM_addrx4 then index_value u d false 4
               else Err DWARF_E_NO_ADDR) ;;
       addrx u addr_off debug_addr idx.

(* dwarf_formstring.c:37-179.  The result says where the string starts: in the unit's section
   or in the string section given.  There is no supplementary file (dwarf_getalt returns
   NULL): DW_FORM_strp_sup and DW_FORM_GNU_strp_alt fail. *)
Inductive str_at := InUnit (p : Z) | InStr (off : Z) | InLineStr (off : Z).
Definition formstring (u : cu) (a : attr) (str line_str str_offsets : option bytes) (str_off : option Z) : outcome str_at :=
  let f := a_form a in
  let d := a_valp a in
  if f =? FORM_string then Ok (InUnit d)
  else if (f =? FORM_GNU_strp_alt) || (f =? FORM_strp_sup) then Err DWARF_E_NO_ALT_DEBUGLINK
  else if f =? FORM_line_strp then
    match line_str with
    | None => Err DWARF_E_NO_DEBUG_LINE_STR
    | Some _ => o <- read_offset (u_fle u) (u_mem u) d (u_osize u) line_str 1 ;; Ok (InLineStr o)
    end
  else match str with
    | None => Err DWARF_E_NO_DEBUG_STR
    | Some s =>
      if f =? FORM_strp then o <- read_offset (u_fle u) (u_mem u) d (u_osize u) str 1 ;; Ok (InStr o)
      else
        idx <- (if (f =? FORM_strx) || (f =? FORM_GNU_str_index) then index_value u d true 0
                else if f =? FORM_strx1 then index_value u d false 1
                else if f =? FORM_strx2 then index_value u d false 2
                else if f =? FORM_strx3 then index_value u d false 3
                else if f =? FORM_strx4 then index_value u d false 4
                else Err DWARF_E_NO_STRING) ;;
        match str_off, str_offsets with
        | None, _ => Err 0
        | _, None => Err DWARF_E_NO_STR_OFFSETS
        | Some base, Some t =>
          if zlen t <? u_osize u then Err DWARF_E_INVALID_OFFSET
          else if zlen t - u_osize u <? base then Err DWARF_E_INVALID_OFFSET
          else let max_idx := (zlen t - u_osize u - base) / u_osize u in
               if max_idx <? idx then Err DWARF_E_INVALID_OFFSET
               else off <- rd (u_fle u) t (base + idx * u_osize u) (if u_osize u =? 4 then 4 else 8) ;;
                    if zlen s <? off then Err DWARF_E_INVALID_OFFSET else Ok (InStr off)
        end
    end.
