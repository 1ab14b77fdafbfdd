(* libdw/fde.c and cie.c: the lookup of the FDE covering an address, with the cache of the CIEs and
   FDEs read so far; dwarf_getcfi_elf.c:71-119 the search table of .eh_frame_hdr.
   malloc and tsearch never fail.
   Simplification: a search tree (tsearch, tfind) is a list, and a search finds the first element
   for which the comparison function returns 0.  For the tree of CIEs (compared by offset) and
   for FDEs with disjoint ranges this is what the tree does; when ranges overlap, which of several
   matching elements is found depends on the shape of the tree. *)
From Verif Require Import Base LebModel DwModel CfiModel NcfiModel.

(* cfi.h:37-58 struct dwarf_cie (initial_state is filled in by the interpreter, CfiModel) *)
Record icie := Icie { ic_off : Z; ic_caf : Z; ic_daf : Z; ic_ra : Z; ic_fsize : Z; ic_ins : Z; ic_end : Z;
                      ic_enc : Z; ic_lsda : Z; ic_sized : bool; ic_signal : bool }.
(* cfi.h:60-71 struct dwarf_fde *)
Record fde := Fde { fd_cie : icie; fd_start : Z; fd_end : Z; fd_ins : Z; fd_iend : Z }.
(* cfi.h:91-98 the cache *)
Record cache := Cache { h_next : Z; h_cies : list icie; h_fdes : list fde }.
(* dwarf_getcfi.c:59-60, dwarf_getcfi_elf.c:45-46 (calloc) *)
Definition cache0 : cache := Cache 0 [] [].

(* cie.c:77-116 the loop over the augmentation string; n bounds the number of characters.  The result
   is sized, signal, FDE data size, FDE encoding, LSDA encoding. *)
Fixpoint intern_aug (c : cfi) (n : nat) (ap data : Z) (sized signal : bool) (fsize e l : Z) : outcome (bool * bool * Z * Z * Z) :=
  match n with
  | O => Fuel
  | S n' =>
    ch <- byte_at (c_mem c) ap ;;
    if ch =? 0 then Ok (sized, signal, fsize, e, l)
    else if ch =? 122 then intern_aug c n' (ap + 1) data true signal fsize e l
    else if ch =? 83 then intern_aug c n' (ap + 1) data sized true fsize e l
    else if ch =? 76 then
      l' <- byte_at (c_mem c) data ;;
      s <- (if sized then Ok 0 else encoded_value_size c l' None) ;;
      intern_aug c n' (ap + 1) (data + 1) sized signal (u64 (fsize + s)) e l'
    else if ch =? 82 then
      e' <- byte_at (c_mem c) data ;; intern_aug c n' (ap + 1) (data + 1) sized signal fsize e' l
    else if ch =? 80 then
      x <- byte_at (c_mem c) data ;;
      s <- encoded_value_size c x (Some (data + 1)) ;;
      intern_aug c n' (ap + 1) (data + 1 + s) sized signal fsize e l
    else if sized then intern_aug c n' (ap + 1) data sized signal fsize e l
    else Ok (sized, signal, fsize, e, l)
  end.
(* cie.c:53-155 intern_new_cie without the insertion.  The string ends before the entry does. *)
Definition new_cie (c : cfi) (off : Z) (i : cie_info) : outcome icie :=
  ' (sized, signal, fsize, e, l) <- intern_aug c (Z.to_nat (i_end i - i_aug i)) (i_aug i) (i_adata i) false false 0 0 255 ;;
  let e := if Z.land e 15 =? 0 then Z.lor e (if c_c32 c then 3 else 4) else e in
  Ok (Icie off (i_caf i) (i_daf i) (i_ra i) fsize (i_ins i) (i_end i) e l sized signal).
(* cie.c:40-50,163 tfind in the tree of CIEs *)
Definition tfind_cie (h : cache) (off : Z) : option icie := find (fun k => ic_off k =? off) (h_cies h).
(* cie.c:147 tsearch; only called for an offset that is not in the tree *)
Definition add_cie (h : cache) (k : icie) : cache := Cache (h_next h) (k :: h_cies h) (h_fdes h).
(* cie.c:157-184 __libdw_find_cie; None is NULL (DWARF_E_INVALID_DWARF) *)
Definition find_cie (c : cfi) (h : cache) (off : Z) : outcome (option icie * cache) :=
  match tfind_cie h off with
  | Some k => Ok (Some k, h)
  | None =>
    r <- next_cfi c off ;;
    match r with
    | NEntry next (ECie i) =>
      let h := if h_next h =? off then Cache next (h_cies h) (h_fdes h) else h in
      k <- new_cie c off i ;; Ok (Some k, add_cie h k)
    | _ => Ok (None, h)
    end
  end.
(* cie.c:186-196 __libdw_intern_cie *)
Definition intern_cie (c : cfi) (h : cache) (off : Z) (i : cie_info) : outcome cache :=
  match tfind_cie h off with
  | Some _ => Ok h
  | None => k <- new_cie c off i ;; Ok (add_cie h k)
  end.

(* fde.c:40-63,252 compare_fde with a search key, in tfind *)
Definition tfind_fde (h : cache) (a : Z) : option fde :=
  find (fun g => negb (a <? fd_start g) && negb (fd_end g <=? a)) (h_fdes h).
(* fde.c:40-63,122 compare_fde with a new FDE, in tsearch: the matching element, or the new one added *)
Definition tsearch_fde (h : cache) (f : fde) : fde * cache :=
  match find (fun g => negb (fd_start g <? fd_start f) && negb (fd_end f <=? fd_start g)) (h_fdes h) with
  | Some g => (g, h)
  | None => (f, Cache (h_next h) (h_cies h) (f :: h_fdes h))
  end.
(* the result of intern_fde: (void * ) -1, NULL with the error code, an FDE *)
Inductive ires := ISkip | INull (e : Z) | IFde (f : fde).
(* fde.c:65-139 intern_fde *)
Definition intern_fde (c : cfi) (h : cache) (ptr start_ end_ : Z) : outcome (ires * cache) :=
  ' (k, h) <- find_cie c h ptr ;;
  match k with
  | None => Ok (ISkip, h)
  | Some k =>
    let bad := Ok (INull DWARF_E_INVALID_DWARF, h) in
    match read_encoded_value c (ic_enc k) start_ with
    | Err _ => bad
    | UB => UB
    | Fuel => Fuel
    | Ok (s, p) =>
      match read_encoded_value c (Z.land (ic_enc k) 15) p with
      | Err _ => bad
      | UB => UB
      | Fuel => Fuel
      | Ok (n, p) =>
        let e := u64 (n + s) in
        if e <=? s then Ok (ISkip, h)
        else if ic_sized k then
          ' (len, p) <- get_uleb128 (c_mem c) p end_ ;;
          if u64 (end_ - p) <? len then bad
          else let '(g, h) := tsearch_fde h (Fde k s e (p + len) end_) in Ok (IFde g, h)
        else let '(g, h) := tsearch_fde h (Fde k s e (p + ic_fsize k) end_) in Ok (IFde g, h)
      end
    end
  end.
(* fde.c:141-171 __libdw_fde_by_offset: an FDE, or NULL with the error code (0: none is set) *)
Definition fde_by_offset (c : cfi) (h : cache) (off : Z) : outcome (fde + Z) * cache :=
  match next_cfi c off with
  | UB => (UB, h)
  | Fuel => (Fuel, h)
  | Err e => (Err e, h)
  | Ok NDone => (Ok (inr DWARF_E_INVALID_DWARF), h)
  | Ok (NBad e _) => (Ok (inr e), h)
  | Ok (NEntry _ (ECie _)) => (Ok (inr DWARF_E_INVALID_DWARF), h)
  | Ok (NEntry next (EFde ptr s e)) =>
    match intern_fde c h ptr s e with
    | UB => (UB, h)
    | Fuel => (Fuel, h)
    | Err e => (Err e, h)
    | Ok (ISkip, h) => (Ok (inr 0), h)
    | Ok (INull e, h) => (Ok (inr e), h)
    | Ok (IFde f, h) => (Ok (inl f), if h_next h =? off then Cache next (h_cies h) (h_fdes h) else h)
    end
  end.

(* cfi.h:107-112 the search table of .eh_frame_hdr: the bytes from the table on, search_table_len
   (the size of the whole header), the address of the header, the number of entries, the encoding *)
Record table := Table { t_mem : bytes; t_len : Z; t_vaddr : Z; t_n : Z; t_enc : Z }.
(* fde.c:183-196 dummy_cfi.  Its other_byte_order is false: two-byte values are read in the byte
   order of the host (little-endian here), four and eight bytes in that of the file
   (encoded-value.h:90-92). *)
Definition table_cfi (c : cfi) (t : table) : cfi :=
  Cfi (t_mem t) (t_len t) (if Z.land (t_enc t) 7 =? 2 then true else c_fle c) (c_c32 c) true (t_vaddr t) 0 (t_vaddr t).
(* fde.c:198-240 the loop, and the address of the FDE; None is the offset -1.  A failing
   read_encoded_value ends the search. *)
Fixpoint bsearch (c : cfi) (t : table) (size : Z) (fuel : nat) (l u a : Z) : outcome (option Z) :=
  match fuel with
  | O => Fuel
  | S f =>
    if u <=? l then Ok None else
    let tc := table_cfi c t in
    let idx := (l + u) / 2 in
    match read_encoded_value tc (t_enc t) (idx * size) with
    | Err _ => Ok None | UB => UB | Fuel => Fuel
    | Ok (start, p) =>
      if a <? start then bsearch c t size f l idx a
      else
        let l := idx + 1 in
        match read_encoded_value tc (t_enc t) p with
        | Err _ => Ok None | UB => UB | Fuel => Fuel
        | Ok (v, p) =>
          if l <? t_n t then
            match read_encoded_value tc (t_enc t) p with
            | Err _ => Ok None | UB => UB | Fuel => Fuel
            | Ok (e, _) => if e <=? a then bsearch c t size f l u a else Ok (Some (u64 (v - c_vaddr c)))
            end
          else Ok (Some (u64 (v - c_vaddr c)))
        end
    end
  end.
(* fde.c:173-243 binary_search_fde *)
Definition binary_search (c : cfi) (t : table) (a : Z) : outcome (option Z) :=
  s <- encoded_value_size c (t_enc t) None ;;
  let size := 2 * s in
  if size =? 0 then Ok None else bsearch c t size (S (Z.to_nat (t_n t))) 0 (t_n t) a.

(* the result of a lookup: an FDE, or NULL with the error code *)
Definition lres : Type := fde + Z.
(* fde.c:278-322 reading on until the FDE is found; fuel bounds the number of entries *)
Fixpoint scan (c : cfi) (fuel : nat) (h : cache) (a : Z) : outcome (lres * cache) :=
  match fuel with
  | O => Fuel
  | S f =>
    r <- next_cfi c (h_next h) ;;
    match r with
    | NDone => Ok (inr DWARF_E_NO_MATCH, Cache (two64 - 1) (h_cies h) (h_fdes h))
    | NBad _ None => Ok (inr DWARF_E_NO_MATCH, h)
    | NBad _ (Some next) =>
      if next =? h_next h then Ok (inr DWARF_E_NO_MATCH, h) else scan c f (Cache next (h_cies h) (h_fdes h)) a
    | NEntry next (ECie i) =>
      h' <- intern_cie c (Cache next (h_cies h) (h_fdes h)) (h_next h) i ;; scan c f h' a
    | NEntry next (EFde ptr s e) =>
      ' (g, h') <- intern_fde c (Cache next (h_cies h) (h_fdes h)) ptr s e ;;
      match g with
      | ISkip => scan c f h' a
      | INull e => Ok (inr e, h')
      | IFde g => if (fd_start g <=? a) && (a <? fd_end g) then Ok (inl g, h') else scan c f h' a
      end
    end
  end.
(* fde.c:245-324 __libdw_find_fde; t = None is search_table == NULL *)
Definition find_fde (c : cfi) (t : option table) (h : cache) (a : Z) : outcome (lres * cache) :=
  match tfind_fde h a with
  | Some g => Ok (inl g, h)
  | None =>
    match t with
    | Some t =>
      o <- binary_search c t a ;;
      match o with
      | None => Ok (inr DWARF_E_NO_MATCH, h)
      | Some off =>
        let '(r, h) := fde_by_offset c h off in
        r <- r ;;
        match r with
        | inr e => Ok (inr e, h)
        | inl f => if a <? fd_start f then Ok (inr DWARF_E_INVALID_DWARF, h)
                   else if fd_end f <=? a then Ok (inr DWARF_E_NO_MATCH, h)
                   else Ok (inl f, h)
        end
      end
    | None => scan c (S (Z.to_nat (c_dsize c))) h a
    end
  end.
(* a sequence of lookups *)
Fixpoint lookups (c : cfi) (t : option table) (h : cache) (l : list Z) : outcome (list lres * cache) :=
  match l with
  | [] => Ok ([], h)
  | a :: l => ' (r, h) <- find_fde c t h a ;; ' (rs, h) <- lookups c t h l ;; Ok (r :: rs, h)
  end.

(* dwarf_getcfi_elf.c:71-119 parse_eh_frame_hdr: -1; or the address of .eh_frame and the table, if
   there is one that can be searched *)
Inductive hdr_res := HBad | HNone (eh_vaddr : Z) | HTable (eh_vaddr : Z) (pos n enc : Z).
Definition hdr_cfi (c : cfi) (hdr : bytes) (vaddr e : Z) : cfi :=
  Cfi hdr (zlen hdr) (if Z.land e 7 =? 2 then true else c_fle c) (c_c32 c) true vaddr 0 vaddr.
Definition parse_eh_frame_hdr (c : cfi) (hdr : bytes) (vaddr : Z) : outcome hdr_res :=
  if zlen hdr <? 4 then Ok HBad else
  v <- byte_at hdr 0 ;;
  if negb (v =? 1) then Ok HBad else
  pe <- byte_at hdr 1 ;; ce <- byte_at hdr 2 ;; te <- byte_at hdr 3 ;;
  if pe =? 255 then Ok HBad else
  match read_encoded_value (hdr_cfi c hdr vaddr pe) pe 4 with
  | UB => UB | Fuel => Fuel | Err _ => Ok HBad
  | Ok (ptr, p) =>
    if ce =? 255 then Ok (HNone ptr) else
    match read_encoded_value (hdr_cfi c hdr vaddr ce) ce p with
    | UB => UB | Fuel => Fuel | Err _ => Ok HBad
    | Ok (n, p) =>
      if negb (n =? 0) && negb (te =? 255) && negb (Z.land te (255 - 8) =? 1) then Ok (HTable ptr p n te)
      else Ok (HNone ptr)
    end
  end.
(* dwarf_getcfi_elf.c:206-250 the use of .eh_frame_hdr: an error (DWARF_E_INVALID_CFI), or the search
   table, if it can be used.  c describes .eh_frame; the address of .eh_frame is compared with the
   one in the header. *)
Definition eh_table (c : cfi) (hdr : bytes) (vaddr : Z) : outcome (option (option table)) :=
  r <- parse_eh_frame_hdr c hdr vaddr ;;
  match r with
  | HBad => Ok None
  | HNone ptr => Ok (Some None)
  | HTable ptr pos n te =>
    vs <- encoded_value_size c te None ;;
    if vs =? 0 then Ok None
    else if (zlen hdr - pos) / vs / 2 <? n then Ok None
    else Ok (Some (if ptr =? c_vaddr c then Some (Table (skipn (Z.to_nat pos) hdr) (zlen hdr) vaddr n te) else None))
  end.
