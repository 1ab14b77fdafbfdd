(* libdw/dwarf_next_cfi.c: the enumeration of the entries (CIEs and FDEs) of a .debug_frame
   or .eh_frame section.  The section is described by the record cfi of CfiModel (byte order,
   class, .eh_frame or .debug_frame, the data); dwarf_next_cfi itself gets these as separate
   arguments.  Pointers are positions relative to d_buf.  A read outside the memory object is UB. *)
From Verif Require Import Base LebModel DwModel CfiModel.

(* libdw.h:165-181 Dwarf_CIE, without CIE_id; pointers are positions *)
Record cie_info := Cinfo { i_aug : Z; i_caf : Z; i_daf : Z; i_ra : Z; i_adata : Z; i_asize : Z;
                           i_fsize : Z; i_ins : Z; i_end : Z }.
(* libdw.h:183-213 Dwarf_CFI_Entry: a CIE, or an FDE with CIE_pointer, start and end *)
Inductive entry := ECie (i : cie_info) | EFde (ptr start_ end_ : Z).
(* what dwarf_next_cfi does: return 1 and store -1; return -1 with an error code, having stored
   a next offset or not; return 0 with the next offset and the entry *)
Inductive next_res := NDone | NBad (e : Z) (next : option Z) | NEntry (next : Z) (x : entry).

(* dwarf_next_cfi.c:139 memchr (bytes, '\0', limit - bytes) *)
Fixpoint memchr0 (mem : bytes) (n : nat) (p : Z) : outcome (option Z) :=
  match n with
  | O => Ok None
  | S n' => b <- byte_at mem p ;; if b =? 0 then Ok (Some p) else memchr0 mem n' (p + 1)
  end.

(* dwarf_next_cfi.c:214-237 the loop over an augmentation string without 'z'.  n bounds the
   number of characters (Fuel is never reached: the string is terminated). *)
Fixpoint aug_loop (c : cfi) (n : nat) (ap p fs : Z) : outcome (Z * Z) :=
  match n with
  | O => Fuel
  | S n' =>
    ch <- byte_at (c_mem c) ap ;;
    if ch =? 0 then Ok (p, fs)
    else if (ch =? 76) || (ch =? 82) then
      encoding <- byte_at (c_mem c) p ;;
      s <- encoded_value_size c encoding None ;;
      aug_loop c n' (ap + 1) (p + 1) (u64 (fs + s))
    else if ch =? 80 then
      encoding <- byte_at (c_mem c) p ;;
      s <- encoded_value_size c encoding (Some (p + 1)) ;;
      aug_loop c n' (ap + 1) (p + 1 + s) fs
    else if ch =? 83 then aug_loop c n' (ap + 1) p fs
    else Ok (p, fs)
  end.

(* dwarf_next_cfi.c:196-243 the augmentation data and the instructions of a CIE; ap is behind
   an initial "eh", nul the position of the terminator of the string *)
Definition cie_tail (c : cfi) (next limit aug ap nul caf daf ra p : Z) : outcome next_res :=
  let bad := Ok (NBad DWARF_E_INVALID_DWARF (Some next)) in
  z <- byte_at (c_mem c) ap ;;
  if z =? 122 then
    if limit <=? p then bad else
    ' (size, p) <- get_uleb128 (c_mem c) p limit ;;
    if u64 (limit - p) <? size then bad
    else Ok (NEntry next (ECie (Cinfo aug caf daf ra p size 0 (p + size) limit)))
  else
    ' (q, fs) <- aug_loop c (Z.to_nat (nul - ap + 1)) ap p 0 ;;
    Ok (NEntry next (ECie (Cinfo aug caf daf ra p (u64 (q - p)) fs q limit))).

(* dwarf_next_cfi.c:170-194 the numbers of a CIE; p is behind the string and the sizes *)
Definition cie_numbers (c : cfi) (next limit version aug nul p : Z) : outcome next_res :=
  let mem := c_mem c in
  let bad := Ok (NBad DWARF_E_INVALID_DWARF (Some next)) in
  a0 <- byte_at mem aug ;;
  eh <- (if a0 =? 101 then a1 <- byte_at mem (aug + 1) ;; Ok (a1 =? 104) else Ok false) ;;
  let ap := if eh : bool then aug + 2 else aug in
  let p := if eh : bool then p + addr_width c else p in
  if limit <=? p then bad else
  ' (caf, p) <- get_uleb128 mem p limit ;;
  if limit <=? p then bad else
  ' (daf, p) <- get_sleb128 mem p limit ;;
  if limit <=? p then bad else
  ' (ra, p) <- (if 3 <=? version then get_uleb128 mem p limit else r <- byte_at mem p ;; Ok (r, p + 1)) ;;
  cie_tail c next limit aug ap nul caf daf ra p.

(* dwarf_next_cfi.c:129-168 a CIE whose version is at p *)
Definition cie_entry (c : cfi) (next limit p : Z) : outcome next_res :=
  let mem := c_mem c in
  let bad e := Ok (NBad e (Some next)) in
  version <- byte_at mem p ;;
  if negb (version =? 1) && ((version <? 3) || (4 <? version)) then bad DWARF_E_INVALID_DWARF else
  let aug := p + 1 in
  r <- memchr0 mem (Z.to_nat (limit - aug)) aug ;;
  match r with
  | None => bad DWARF_E_INVALID_DWARF
  | Some nul =>
    let p := nul + 1 in
    if 4 <=? version then
      if limit - p <? 5 then bad DWARF_E_INVALID_DWARF else
      asize <- byte_at mem p ;;
      if negb (asize =? addr_width c) then bad DWARF_E_VERSION else
      seg <- byte_at mem (p + 1) ;;
      if negb (seg =? 0) then bad DWARF_E_VERSION
      else cie_numbers c next limit version aug nul (p + 2)
    else cie_numbers c next limit version aug nul p
  end.

(* dwarf_next_cfi.c:100-127,244-252 an entry whose CIE pointer is at p and which ends at limit *)
Definition id_entry (c : cfi) (osz next limit p : Z) : outcome next_res :=
  v <- rd (c_fle c) (c_mem c) p osz ;;
  let ones := two64 - 1 in
  let id := if (osz =? 4) && negb (c_eh c) && (v =? two32 - 1) then ones else v in
  if c_eh c then
    if id =? 0 then cie_entry c next limit (p + osz)
    else if (p <? id) || (p <=? osz) then Ok (NBad DWARF_E_INVALID_DWARF (Some next))
    else if p - id =? ones then cie_entry c next limit (p + osz)
    else Ok (NEntry next (EFde (p - id) (p + osz) limit))
  else if id =? ones then cie_entry c next limit (p + osz)
  else Ok (NEntry next (EFde id (p + osz) limit)).

(* dwarf_next_cfi.c:36-98 dwarf_next_cfi.  The buffer position of an offset of 2^63 and more is
   negative. *)
Definition next_cfi (c : cfi) (off : Z) : outcome next_res :=
  let dsz := c_dsize c in
  if (off =? two64 - 1) || (dsz <=? u64 (off + 4)) then Ok NDone else
  let start := s64 off in
  length <- rd (c_fle c) (c_mem c) start 4 ;;
  let p := start + 4 in
  if length =? two32 - 1 then
    if dsz - p <? 8 then Ok (NBad DWARF_E_INVALID_DWARF None) else
    length <- rd (c_fle c) (c_mem c) p 8 ;;
    let p := p + 8 in
    if length =? 0 then Ok NDone
    else if (u64 (dsz - p) <? length) || (length <? 9) then Ok (NBad DWARF_E_INVALID_DWARF None)
    else id_entry c 8 (u64 (off + 12 + length)) (p + length) p
  else
    if length =? 0 then Ok NDone
    else if (u64 (dsz - p) <? length) || (length <? 5) then Ok (NBad DWARF_E_INVALID_DWARF None)
    else id_entry c 4 (u64 (off + 4 + length)) (p + length) p.

(* the loop of a caller: from off on, until dwarf_next_cfi does not return 0 (as tests/next_cfi.c:70-88) *)
Fixpoint next_cfi_all (fuel : nat) (c : cfi) (off : Z) : outcome (list (Z * entry) * next_res) :=
  match fuel with
  | O => Fuel
  | S f => r <- next_cfi c off ;;
           match r with
           | NEntry next x => ' (l, e) <- next_cfi_all f c next ;; Ok ((off, x) :: l, e)
           | _ => Ok ([], r)
           end
  end.
