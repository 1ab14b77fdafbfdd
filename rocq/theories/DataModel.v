(* Model of section data in libelf: elf_getdata.c, elf_rawdata.c, elf_newdata.c,
   elf_getdata_rawchunk.c, elf_strptr.c, elf_compress.c, elf_compress_gnu.c,
   elf32_getchdr.c (elf64_getchdr.c, gelf_getchdr.c).

   Simplifications: a buffer is the list of its bytes (aliasing of the mapped
   file and the section's buffers is not modelled: nobody writes through them
   here); locks are not modelled (the library is built without them by default); every malloc/calloc of one call succeeds or
   fails together (parameter al); the descriptor has kind ELF_K_ELF; the section
   header was read before.  [junk] is the content of fresh memory. *)
From Verif Require Import Base ElfErr XlateModel.

(* libelfP.h struct Elf, as far as used here.  fd_img is the content of the file
   as mapped, or as pread sees it. *)
Record efile := EFile {
  f_map : bool;        (* map_address != NULL *)
  f_fd : bool;         (* fildes != -1 *)
  f_img : bytes;
  f_start : Z;         (* start_offset *)
  f_max : Z;           (* maximum_size *)
  f_c64 : bool;        (* class *)
  f_le : bool;         (* the host is little-endian *)
  f_native : bool;     (* e_ident[EI_DATA] == MY_ELFDATA *)
  f_hashent : Z;       (* SH_ENTSIZE_HASH (ehdr): elf-knowledge.h:75-78 *)
  f_version : Z }.     (* e_ident[EI_VERSION] *)

(* Elf32_Shdr / Elf64_Shdr members used *)
Record shdr := Shdr { sh_type : Z; sh_flags : Z; sh_offset : Z; sh_size : Z; sh_addralign : Z }.

(* Elf_Data (libelf.h:149-158) *)
Record edat := EDat {
  ed_buf : option bytes; ed_type : Z; ed_size : Z; ed_off : Z; ed_align : Z; ed_version : Z }.
Definition edat0 := EDat None 0 0 0 0 0.

(* Elf_Scn (libelfP.h:183-253).  The data list is the embedded first element and
   the allocated rest; s_rear: the position of data_list_rear, if not NULL. *)
Record sec := Sec {
  s_index : Z;
  s_hdr : shdr;
  s_rawbase : option bytes;     (* rawdata_base *)
  s_raw : edat;                 (* rawdata.d *)
  s_read : bool;                (* data_read *)
  s_file : bool;                (* flags & ELF_F_FILEDATA *)
  s_first : edat; s_rest : list edat; s_rear : option nat;
  s_zbase : option bytes; s_zsize : Z; s_zalign : Z }.

Definition SHT_NULL := 0. Definition SHT_STRTAB := 3. Definition SHT_HASH := 5. Definition SHT_NOBITS := 8.
Definition SHF_ALLOC := 2. Definition SHF_COMPRESSED := 2048.
Definition has (flags bit : Z) : bool := negb (Z.land flags bit =? 0).

(* elf_getdata.c:53-117 with TYPEIDX (45-50) applied: unlisted types are bytes. *)
Definition shtype_map (t : Z) : Z :=
  if (t =? 2) || (t =? 11) then ELF_T_SYM              (* SYMTAB, DYNSYM *)
  else if t =? 4 then ELF_T_RELA
  else if t =? 5 then ELF_T_WORD                       (* HASH *)
  else if t =? 6 then ELF_T_DYN
  else if t =? 7 then ELF_T_NHDR
  else if t =? 9 then ELF_T_REL
  else if (t =? 14) || (t =? 15) || (t =? 16) then ELF_T_ADDR
  else if (t =? 17) || (t =? 18) then ELF_T_WORD       (* GROUP, SYMTAB_SHNDX *)
  else if t =? 1879048182 (* 0x6ffffff6 *) then ELF_T_GNUHASH
  else if t =? 1879048183 then ELF_T_LIB
  else if t =? 1879048186 then ELF_T_MOVE
  else if t =? 1879048188 then ELF_T_SYMINFO
  else if t =? 1879048189 then ELF_T_VDEF
  else if t =? 1879048190 then ELF_T_VNEED
  else if t =? 1879048191 then ELF_T_HALF              (* GNU_versym *)
  else ELF_T_BYTE.

(* elf_getdata.c:120-140 __libelf_data_type *)
Definition data_type (f : efile) (t align : Z) : Z :=
  if (t =? SHT_HASH) && f_c64 f then (if f_hashent f =? 4 then ELF_T_WORD else ELF_T_XWORD)
  else let ty := shtype_map t in
       if (ty =? ELF_T_NHDR) && (align =? 8) then ELF_T_NHDR8 else ty.

(* elf_getdata.c:271-299: the entry size the section size must be a multiple of *)
Definition entsize (f : efile) (h : shdr) : Z :=
  let e :=
    if has (sh_flags h) SHF_COMPRESSED then 1
    else if sh_type h =? SHT_HASH then f_hashent f
    else let ty := shtype_map (sh_type h) in
         let ty := if (ty =? ELF_T_NHDR) && (sh_addralign h =? 8) then ELF_T_NHDR8 else ty in
         if (ty =? ELF_T_VDEF) || (ty =? ELF_T_NHDR) || (ty =? ELF_T_NHDR8)
            || ((ty =? ELF_T_GNUHASH) && f_c64 f) then 1
         else match fsize (f_c64 f) ty with Some z => z | None => 0 end in
  if e =? 0 then 1 else e.

(* Reading size bytes at offset of the file: the mapping (an access outside is
   UB), or pread, which delivers what the file has. *)
Definition map_bytes (f : efile) (off size : Z) : outcome bytes :=
  if (0 <=? f_start f + off) && (f_start f + off + size <=? zlen (f_img f))
  then Ok (zsub (f_img f) (f_start f + off) size) else UB.
Definition pread (f : efile) (off size : Z) : bytes :=
  zsub (f_img f) (f_start f + off) (Z.min size (zlen (f_img f) - (f_start f + off))).

(* elf_getdata.c:222-404 __libelf_set_rawdata_wrlock; on error nothing changes. *)
Definition set_rawdata (al : bool) (f : efile) (s : sec) : outcome sec :=
  let h := s_hdr s in
  let fin (base : option bytes) (buf : option bytes) :=
    let align := if sh_addralign h =? 0 then 1 else sh_addralign h in
    let align := if negb (sh_type h =? SHT_NOBITS) && (sh_offset h <? align) then sh_offset h else align in
    let ty := if has (sh_flags h) SHF_COMPRESSED then ELF_T_CHDR
              else data_type f (sh_type h) (sh_addralign h) in
    Ok (Sec (s_index s) h base (EDat buf ty (sh_size h) 0 align (f_version f)) true true
          (s_first s) (s_rest s) (s_rear s) (s_zbase s) (s_zsize s) (s_zalign s)) in
  if negb (sh_size h =? 0) && negb (sh_type h =? SHT_NOBITS) then
    if negb (sh_size h mod entsize f h =? 0) then Err ELF_E_INVALID_DATA
    else if f_map f then
      if (f_max f <? sh_offset h) || (f_max f - sh_offset h <? sh_size h)
      then Err ELF_E_INVALID_SECTION_HEADER
      else b <- map_bytes f (sh_offset h) (sh_size h) ;; fin (Some b) (Some b)
    else if f_fd f then
      if (f_max f <? sh_offset h) || (f_max f - sh_offset h <? sh_size h)
      then Err ELF_E_INVALID_SECTION_HEADER
      else if negb al then Err ELF_E_NOMEM
      else let b := pread f (sh_offset h) (sh_size h) in
           if zlen b =? sh_size h then fin (Some b) (Some b) else Err ELF_E_READ_ERROR
    else Err ELF_E_FD_DISABLED
  else fin (s_rawbase s) (ed_buf (s_raw s)).

(* The conversion functions applied from a buffer to fresh memory. *)
Definition fresh (raw : bytes) (junk : Z -> Z) : mem :=
  fun x => if (0 <=? x) && (x <? zlen raw) then nth (Z.to_nat x) raw 0 else junk x.
Definition conv (c64 le : bool) (ty : Z) (raw : bytes) (junk : Z -> Z) : outcome bytes :=
  let n := zlen raw in
  m' <- xfct c64 ty le false (fresh raw junk) n 0 n ;; Ok (rdm m' n (Z.to_nat n)).

(* elf_getdata.c:143-218 convert_data: the converted bytes; None if malloc fails.
   (Whether a native-order buffer has to be copied for alignment is [aligned].) *)
Definition convert_data (al aligned : bool) (junk : Z -> Z) (f : efile) (ty : Z) (raw : bytes)
  : outcome (option bytes) :=
  if f_native f || (ty =? ELF_T_BYTE) then
    (if aligned || al then Ok (Some raw) else Ok None)
  else if negb al then Ok None
  else b <- conv (f_c64 f) (f_le f) ty raw junk ;; Ok (Some b).

(* elf_getdata.c:422-458 __libelf_set_data_list_rdlock *)
Definition set_data_list (al aligned : bool) (junk : Z -> Z) (f : efile) (s : sec) : outcome sec :=
  let r := s_raw s in
  let put (d : edat) :=
    Sec (s_index s) (s_hdr s) (s_rawbase s) r (s_read s) (s_file s) d (s_rest s) (Some O)
        (s_zbase s) (s_zsize s) (s_zalign s) in
  match ed_buf r with
  | Some raw =>
    if 0 <? ed_size r then
      if negb (zlen raw =? ed_size r) then UB   (* the buffer has d_size bytes *)
      else
      c <- convert_data al aligned junk f (ed_type r) raw ;;
      match c with
      | Some b => Ok (put (EDat (Some b) (ed_type r) (ed_size r) (ed_off r) (ed_align r) (ed_version r)))
      | None => Ok (put (s_first s))            (* 157-161: returns early, the rear is set anyway *)
      end
    else Ok (put r)
  | None => Ok (put r)
  end.

Definition isSome {A : Type} (o : option A) : bool := match o with Some _ => true | None => false end.

(* An Elf_Data pointer passed by the user: NULL, the i-th record of this
   section's list, or another one. *)
Inductive dptr := DNull | DAt (i : nat) | DForeign.
(* A result: a record of the list, or NULL and the error set, if any. *)
Inductive dres := RData (i : nat) | RNull (e : option Z).

Definition data_at (s : sec) (i : nat) : option edat := nth_error (s_first s :: s_rest s) i.

(* elf_getdata.c:460-570 __elf_getdata_rdlock / elf_getdata *)
Definition getdata (al aligned : bool) (junk : Z -> Z) (f : efile) (s : sec) (d : dptr)
  : outcome (sec * dres) :=
  match d with
  | DForeign => Ok (s, RNull (Some ELF_E_DATA_MISMATCH))
  | DAt i =>
    if negb (isSome (s_rear s)) then Ok (s, RNull (Some ELF_E_DATA_MISMATCH))
    else match data_at s i with
         | None => Ok (s, RNull (Some ELF_E_DATA_MISMATCH))
         | Some _ => Ok (s, if (S i <=? length (s_rest s))%nat then RData (S i) else RNull None)
         end
  | DNull =>
    let go s := s' <- (if isSome (s_rear s) then Ok s else set_data_list al aligned junk f s) ;; Ok (s', RData O) in
    if s_read s then go s
    else match set_rawdata al f s with
         | Err e => Ok (s, RNull (Some e))
         | Ok s' => go s'
         | UB => UB
         | Fuel => Fuel
         end
  end.

(* elf_rawdata.c:39-75: the raw record or an error. *)
Definition rawdata (al : bool) (f : efile) (s : sec) (d : dptr) : outcome (sec * option Z) :=
  match d with
  | DNull =>
    if s_read s && negb (s_file s) then Ok (s, Some ELF_E_DATA_MISMATCH)
    else if s_read s then Ok (s, None)
    else match set_rawdata al f s with
         | Err e => Ok (s, Some e)
         | Ok s' => Ok (s', None)
         | UB => UB
         | Fuel => Fuel
         end
  | _ => Ok (s, Some ELF_E_DATA_MISMATCH)
  end.

(* elf_newdata.c:40-136 (an ELF header exists) *)
Definition newdata (al aligned : bool) (junk : Z -> Z) (f : efile) (s : sec) : outcome (sec * dres) :=
  if s_index s =? 0 then Ok (s, RNull (Some ELF_E_NOT_NUL_SECTION)) else
  s <- (if s_read s && isSome (s_rawbase s) && negb (isSome (s_rear s))
        then set_data_list al aligned junk f s else Ok s) ;;
  if s_read s && negb (isSome (s_rear s)) then
    let d := s_first s in
    Ok (Sec (s_index s) (s_hdr s) (s_rawbase s) (s_raw s) (s_read s) (s_file s)
            (EDat (ed_buf d) (ed_type d) (ed_size d) (ed_off d) (ed_align d) 1) (s_rest s) (Some O)
            (s_zbase s) (s_zsize s) (s_zalign s), RData O)
  else
    let add s :=
      if negb al then Ok (s, RNull (Some ELF_E_NOMEM))
      else
        (* data_list_rear->next = result: what followed is dropped *)
        let r := match s_rear s with Some r => r | None => O end in
        Ok (Sec (s_index s) (s_hdr s) (s_rawbase s) (s_raw s) (s_read s) (s_file s)
                (s_first s) (firstn r (s_rest s) ++ [EDat None 0 0 0 0 1]) (Some (S r))
                (s_zbase s) (s_zsize s) (s_zalign s), RData (S r)) in
    if s_read s then add s
    else match set_rawdata al f s with
         | Err e => Ok (s, RNull (Some e))
         | Ok s' => s' <- set_data_list al aligned junk f s' ;; add s'
         | UB => UB
         | Fuel => Fuel
         end.

(* elf_getdata_rawchunk.c:43-186: the delivered buffer.  alr: the mapped bytes
   are aligned for the type. *)
Definition rawchunk (al alr : bool) (junk : Z -> Z) (f : efile) (off size ty : Z) : outcome bytes :=
  if (off <? 0) || (f_max f <? off) || (f_max f - off <? size) then Err ELF_E_INVALID_OP
  else if ELF_T_NUM <=? ty then Err ELF_E_UNKNOWN_TYPE
  else if f_map f then
    b <- map_bytes f off size ;;
    if f_native f then (if alr || al then Ok b else Err ELF_E_NOMEM)
    else if negb al then Err ELF_E_NOMEM
    else if alr then conv (f_c64 f) (f_le f) ty b junk
    else (* copied, then converted in place *)
      m' <- xfct (f_c64 f) ty (f_le f) false (fresh b junk) 0 0 size ;; Ok (rdm m' 0 (Z.to_nat size))
  else if negb al then Err ELF_E_NOMEM
  else
    let b := pread f off size in
    if negb (f_fd f && (zlen b =? size)) then Err ELF_E_READ_ERROR
    else if f_native f then Ok b
    else m' <- xfct (f_c64 f) ty (f_le f) false (fresh b junk) 0 0 size ;; Ok (rdm m' 0 (Z.to_nat size)).

(* ------------------------------------------------------------------ *)
(* zlib, abstractly: deflate of a whole input, and inflate of one stream with
   so much room for output: the output and the remaining input, if the end of the
   stream is reached. *)
Record zlib := ZLib { z_defl : bytes -> bytes; z_infl : bytes -> Z -> option (bytes * bytes) }.

(* elf_compress.c:210-260 __libelf_decompress.  avail_in and avail_out of zlib
   are 32 bits wide. *)
Fixpoint inflate_loop (fuel : nat) (z : zlib) (inp : bytes) (room : Z) : outcome (bytes * Z) :=
  match inp with
  | [] => Ok ([], room)
  | _ =>
    match fuel with
    | O => Fuel
    | S fuel =>
      match z_infl z inp room with
      | None => Err ELF_E_DECOMPRESS_ERROR
      | Some (out, rest) =>
          ' (out2, r2) <- inflate_loop fuel z rest (room - zlen out) ;; Ok (out ++ out2, r2)
      end
    end
  end.
Definition decompress (al : bool) (junk : Z -> Z) (z : zlib) (inp : bytes) (size_out : Z) : outcome bytes :=
  if zlen inp <? size_out / 1032 then Err ELF_E_INVALID_DATA
  else if negb al then Err ELF_E_NOMEM
  else
    let inp := firstn (Z.to_nat (u32 (zlen inp))) inp in
    ' (out, room) <- inflate_loop (length inp) z inp (u32 size_out) ;;
    (* 232, 239: avail_out is the low half of size_out, so the output starts at
       size_out - avail_out and what is before it is not initialised *)
    if room =? 0 then Ok (rdm junk 0 (Z.to_nat (size_out - u32 size_out)) ++ out)
    else Err ELF_E_DECOMPRESS_ERROR.

Definition chdr_size (c64 : bool) : Z := if c64 then 24 else 12.
(* host-order integers *)
Definition hval (le : bool) (b : bytes) : Z := if le then le_value b else be_value b.
Definition hbytes (le : bool) (n : nat) (x : Z) : bytes := if le then le_bytes n x else be_bytes n x.

(* A call's result: an error number, or a value. *)
Definition res (A : Type) := (Z + A)%type.

(* elf32_getchdr.c:42-83 and gelf_getchdr.c:38-68: (ch_type, ch_size, ch_addralign) *)
Definition getchdr (al aligned : bool) (junk : Z -> Z) (f : efile) (s : sec)
  : outcome (sec * res (Z * Z * Z)) :=
  let h := s_hdr s in
  if has (sh_flags h) SHF_ALLOC then Ok (s, inl ELF_E_INVALID_SECTION_FLAGS)
  else if (sh_type h =? SHT_NULL) || (sh_type h =? SHT_NOBITS) then Ok (s, inl ELF_E_INVALID_SECTION_TYPE)
  else if negb (has (sh_flags h) SHF_COMPRESSED) then Ok (s, inl ELF_E_NOT_COMPRESSED)
  else
    ' (s, r) <- getdata al aligned junk f s DNull ;;
    match r with
    | RNull e => Ok (s, inl (match e with Some e => e | None => ELF_E_NOERROR end))
    | RData i =>
      match data_at s i with
      | None => UB
      | Some d =>
        match ed_buf d with
        | None => Ok (s, inl ELF_E_INVALID_DATA)
        | Some b =>
          if ed_size d <? chdr_size (f_c64 f) then Ok (s, inl ELF_E_INVALID_DATA)
          else if zlen b <? chdr_size (f_c64 f) then UB
          else if f_c64 f
          then Ok (s, inr (hval (f_le f) (zsub b 0 4), hval (f_le f) (zsub b 8 8), hval (f_le f) (zsub b 16 8)))
          else Ok (s, inr (hval (f_le f) (zsub b 0 4), hval (f_le f) (zsub b 4 4), hval (f_le f) (zsub b 8 4)))
        end
      end
    end.

(* lib/system.h powerof2: ((x) - 1) & (x) == 0 *)
Definition powerof2 (x : Z) : bool := Z.land (u64 (x - 1)) x =? 0.

(* elf_compress.c:262-301 __libelf_decompress_elf: buffer, size, alignment *)
Definition decompress_elf (al aligned : bool) (junk : Z -> Z) (z : zlib) (f : efile) (s : sec)
  : outcome (sec * res (bytes * Z * Z)) :=
  ' (s, c) <- getchdr al aligned junk f s ;;
  match c with
  | inl e => Ok (s, inl e)
  | inr (ty, size, align) =>
    if negb (ty =? 1) then Ok (s, inl ELF_E_UNKNOWN_COMPRESSION_TYPE)
    else if negb (powerof2 align) then Ok (s, inl ELF_E_INVALID_ALIGN)
    else
      ' (s, r) <- getdata al aligned junk f s DNull ;;
      match r with
      | RNull e => Ok (s, inl (match e with Some e => e | None => ELF_E_NOERROR end))
      | RData i =>
        match data_at s i with
        | None => UB
        | Some d =>
          match ed_buf d with
          | None => UB
          | Some b =>
            if zlen b <? ed_size d then UB else
            match decompress al junk z (zsub b (chdr_size (f_c64 f)) (ed_size d - chdr_size (f_c64 f))) size with
            | Ok out => Ok (s, inr (out, size, align))
            | Err e => Ok (s, inl e)
            | UB => UB
            | Fuel => Fuel
            end
          end
        end
      end
  end.

Definition set_hdr (s : sec) (h : shdr) : sec :=
  Sec (s_index s) h (s_rawbase s) (s_raw s) (s_read s) (s_file s) (s_first s) (s_rest s) (s_rear s)
      (s_zbase s) (s_zsize s) (s_zalign s).
Definition set_z (s : sec) (zb : option bytes) (zs za : Z) : sec :=
  Sec (s_index s) (s_hdr s) (s_rawbase s) (s_raw s) (s_read s) (s_file s) (s_first s) (s_rest s) (s_rear s)
      zb zs za.

(* memrchr (&str[from], 0, to - from) != NULL: reads from the end downwards.
   str has the bytes b. *)
Definition validate_str (b : bytes) (from to : Z) : outcome bool :=
  if to <=? from then Ok false
  else if zlen b <? to then UB
  else Ok (existsb (fun x => x =? 0) (zsub b from (to - from))).

(* A returned string: the block it is in and the position. *)
Definition sres := (sec * (option (bytes * Z) * option Z))%type.

(* elf_strptr.c:209-232: the walk over the data blocks *)
Fixpoint strptr_walk (l : list edat) (offset : Z) : outcome (option (bytes * Z) * option Z) :=
  match l with
  | [] => Ok (None, None)
  | d :: r =>
    if (u64 (ed_off d) <=? offset) && (offset <? u64 (ed_off d + ed_size d)) then
      match ed_buf d with
      | None => UB
      | Some b =>
        let from := u64 (offset - ed_off d) in
        v <- validate_str b from (ed_size d) ;;
        Ok (if (v : bool) then (Some (b, from), None) else (None, Some ELF_E_INVALID_INDEX))
      end
    else strptr_walk r offset
  end.

(* elf_strptr.c:41-54 and its use at 127-133, 153-159: the size of the strings *)
Definition str_size (al aligned : bool) (junk : Z -> Z) (z : zlib) (f : efile) (s : sec)
  : outcome (sec * res Z) :=
  if negb (has (sh_flags (s_hdr s)) SHF_COMPRESSED) then Ok (s, inr (sh_size (s_hdr s)))
  else match s_zbase s with
       | Some _ => Ok (s, inr (s_zsize s))
       | None =>
         ' (s, r) <- decompress_elf al aligned junk z f s ;;
         match r with
         | inl e => Ok (s, inl e)
         | inr (b, sz, a) => Ok (set_z s (Some b) sz a, inr sz)
         end
       end.

(* elf_strptr.c:173-182 *)
Definition str_load (al : bool) (f : efile) (s : sec) : outcome (sec * option Z) :=
  if negb (isSome (s_rawbase s)) && negb (s_read s) then
    match set_rawdata al f s with
    | Err e => Ok (s, Some e)
    | Ok s' => Ok (s', None)
    | UB => UB
    | Fuel => Fuel
    end
  else Ok (s, None).

(* elf_strptr.c:72-239, for the section found by its index. *)
Definition strptr (al aligned : bool) (junk : Z -> Z) (z : zlib) (f : efile) (s : sec) (offset : Z)
  : outcome sres :=
  if negb (sh_type (s_hdr s) =? SHT_STRTAB) then Ok (s, (None, Some ELF_E_INVALID_SECTION))
  else
  ' (s, r) <- str_size al aligned junk z f s ;;
  match r with
  | inl e => Ok (s, (None, Some e))
  | inr size =>
    if size <=? offset then Ok (s, (None, Some ELF_E_OFFSET_RANGE))
    else
    ' (s, e) <- str_load al f s ;;
    match e with
    | Some e => Ok (s, (None, Some e))
    | None =>
      let done (b : bytes) (v : bool) : sres :=
        (s, if v then (Some (b, offset), None) else (None, Some ELF_E_INVALID_INDEX)) in
      match s_zbase s with
      | Some zb => v <- validate_str zb offset size ;; Ok (done zb v)
      | None =>
        if negb (isSome (s_rear s)) then
          match s_rawbase s with
          | None => UB
          | Some b => v <- validate_str b offset size ;; Ok (done b v)
          end
        else r <- strptr_walk (s_first s :: s_rest s) offset ;; Ok (s, r)
      end
    end
  end.

(* ------------------------------------------------------------------ *)
(* elf_compress.c:303-335 __libelf_reset_rawdata *)
Definition reset_rawdata (al aligned : bool) (junk : Z -> Z) (f : efile) (s : sec)
    (buf : bytes) (size align ty : Z) : outcome sec :=
  set_data_list al aligned junk f
    (Sec (s_index s) (s_hdr s) (Some buf) (EDat (Some buf) ty size 0 align 1) true true
         (s_first s) (s_rest s) None (s_zbase s) (s_zsize s) (s_zalign s)).

(* elf_compress.c:109-150, all data buffers in file byte order, one after the
   other: gelf_xlatetof into a malloc'ed copy.  Only the low 32 bits of the size
   reach zlib (z.avail_in). *)
Definition file_bytes (f : efile) (d : edat) (junk : Z -> Z) : outcome bytes :=
  match ed_buf d with
  | None => if ed_size d =? 0 then Ok [] else UB
  | Some b =>
    if zlen b <? ed_size d then UB
    else if f_native f then Ok (firstn (Z.to_nat (u32 (ed_size d))) b)
    else
      let n := ed_size d in
      ' (m', _) <- xlate true (f_c64 f) (f_le f) (fresh b junk) (EData (zlen b) (ed_type d) n)
                     (EData 0 (ed_type d) n) (if f_le f then ELFDATA2MSB else ELFDATA2LSB) ;;
      Ok (firstn (Z.to_nat (u32 n)) (rdm m' (zlen b) (Z.to_nat n)))
  end.
Fixpoint all_bytes (f : efile) (l : list edat) (junk : Z -> Z) : outcome bytes :=
  match l with
  | [] => Ok []
  | d :: r => b <- file_bytes f d junk ;; c <- all_bytes f r junk ;; Ok (b ++ c)
  end.

(* elf_compress.c:66-208 __libelf_compress: None when not worth it; else the
   compressed bytes (without header), original size and alignment. *)
Definition compress (al aligned : bool) (junk : Z -> Z) (z : zlib) (f : efile) (s : sec)
    (hsize : Z) (force : bool) : outcome (sec * res (option (bytes * Z * Z))) :=
  ' (s, r) <- getdata al aligned junk f s DNull ;;
  match r with
  | RNull e => Ok (s, inl (match e with Some e => e | None => ELF_E_NOERROR end))
  | RData _ =>
    let l := s_first s :: s_rest s in
    if (match s_rest s with [] => true | _ => false end) && negb force
       && (ed_size (s_first s) <=? hsize + 5 + 6) then Ok (s, inr None)
    else if negb al then Ok (s, inl ELF_E_NOMEM)
    else
      let osize := fold_left (fun a d => u64 (a + ed_size d)) (s_rest s) (ed_size (s_first s)) in
      let oalign := fold_left (fun a d => Z.max a (ed_align d)) (s_rest s) (ed_align (s_first s)) in
      match all_bytes f l junk with
      | Ok raw =>
        let c := z_defl z raw in
        if negb force && (osize <=? hsize + zlen c) then Ok (s, inr None)
        else Ok (s, inr (Some (c, osize, oalign)))
      | Err e => Ok (s, inl e)
      | UB => UB
      | Fuel => Fuel
      end
  end.

(* The header in file byte order: elf_compress.c:415-447. *)
Definition chdr_bytes (f : efile) (sz align : Z) : bytes :=
  let le := if f_native f then f_le f else negb (f_le f) in
  if f_c64 f then hbytes le 4 1 ++ hbytes le 4 0 ++ hbytes le 8 sz ++ hbytes le 8 align
  else hbytes le 4 1 ++ hbytes le 4 sz ++ hbytes le 4 align.

(* elf_compress.c:337-532 elf_compress: the section and the error or return value.
   390: the flag bit is compared with 1, so the test never succeeds. *)
Definition elf_compress (al aligned : bool) (junk : Z -> Z) (z : zlib) (f : efile) (s : sec)
    (type flags : Z) : outcome (sec * res Z) :=
  if negb (Z.land flags (-2) =? 0) then Ok (s, inl ELF_E_INVALID_OPERAND)
  else
  let force := has flags 1 in
  let h := s_hdr s in
  if has (sh_flags h) SHF_ALLOC then Ok (s, inl ELF_E_INVALID_SECTION_FLAGS)
  else if (sh_type h =? SHT_NULL) || (sh_type h =? SHT_NOBITS) then Ok (s, inl ELF_E_INVALID_SECTION_TYPE)
  else
  let compressed := Z.land (sh_flags h) SHF_COMPRESSED in
  if type =? 1 then
    if compressed =? 1 then Ok (s, inl ELF_E_ALREADY_COMPRESSED)
    else
      ' (s, r) <- compress al aligned junk z f s (chdr_size (f_c64 f)) force ;;
      match r with
      | inl e => Ok (s, inl e)
      | inr None => Ok (s, inr 0)
      | inr (Some (c, osize, oalign)) =>
        let out := chdr_bytes f osize (if f_c64 f then sh_addralign h else oalign) ++ c in
        let h' := Shdr (sh_type h) (Z.lor (sh_flags h) SHF_COMPRESSED) (sh_offset h)
                       (if f_c64 f then zlen out else u32 (zlen out)) 1 in
        s <- reset_rawdata al aligned junk f (set_hdr s h') out (zlen out) 1 ELF_T_CHDR ;;
        Ok (set_z s None (s_zsize s) (s_zalign s), inr 1)
      end
  else if type =? 0 then
    if compressed =? 0 then Ok (s, inl ELF_E_NOT_COMPRESSED)
    else
      ' (s, e) <- (match s_zbase s with
            | Some _ => Ok (s, None)
            | None => ' (s, r) <- decompress_elf al aligned junk z f s ;;
                      match r with
                      | inl e => Ok (s, Some e)
                      | inr (b, sz, a) => Ok (set_z s (Some b) sz a, None)
                      end
            end) ;;
      match e, s_zbase s with
      | Some e, _ => Ok (s, inl e)
      | None, None => UB
      | None, Some b =>
        let h' := Shdr (sh_type h) (Z.land (sh_flags h) (Z.lnot SHF_COMPRESSED)) (sh_offset h)
                       (if f_c64 f then s_zsize s else u32 (s_zsize s))
                       (if f_c64 f then s_zalign s else u32 (s_zalign s)) in
        s <- reset_rawdata al aligned junk f (set_hdr s h') b (s_zsize s) (s_zalign s)
               (data_type f (sh_type h) (s_zalign s)) ;;
        Ok (s, inr 1)
      end
  else Ok (s, inl ELF_E_UNKNOWN_COMPRESSION_TYPE).

Definition ZLIB_magic : bytes := [90; 76; 73; 66].

(* elf_compress_gnu.c:37-210 *)
Definition elf_compress_gnu (al aligned : bool) (junk : Z -> Z) (z : zlib) (f : efile) (s : sec)
    (inflate flags : Z) : outcome (sec * res Z) :=
  if negb (Z.land flags (-2) =? 0) then Ok (s, inl ELF_E_INVALID_OPERAND)
  else
  let force := has flags 1 in
  let h := s_hdr s in
  if has (sh_flags h) SHF_ALLOC || has (sh_flags h) SHF_COMPRESSED then Ok (s, inl ELF_E_INVALID_SECTION_FLAGS)
  else if (sh_type h =? SHT_NULL) || (sh_type h =? SHT_NOBITS) then Ok (s, inl ELF_E_INVALID_SECTION_TYPE)
  else
  let with_size n := Shdr (sh_type h) (sh_flags h) (sh_offset h) (if f_c64 f then n else u32 n) (sh_addralign h) in
  if inflate =? 1 then
    ' (s, r) <- compress al aligned junk z f s 12 force ;;
    match r with
    | inl e => Ok (s, inl e)
    | inr None => Ok (s, inr 0)
    | inr (Some (c, osize, oalign)) =>
      let out := ZLIB_magic ++ be_bytes 8 osize ++ c in
      s <- reset_rawdata al aligned junk f (set_hdr s (with_size (zlen out))) out (zlen out) 1 ELF_T_BYTE ;;
      Ok (set_z s None (s_zsize s) (s_zalign s), inr 1)
    end
  else if inflate =? 0 then
    ' (s, e) <- rawdata al f s DNull ;;
    match e with
    | Some e => Ok (s, inl e)
    | None =>
      let d := s_raw s in
      if ed_size d <? 12 then Ok (s, inl ELF_E_NOT_COMPRESSED)
      else match ed_buf d with
      | None => UB
      | Some b =>
        if zlen b <? ed_size d then UB
        else if negb (forallb (fun p => fst p =? snd p) (combine (zsub b 0 4) ZLIB_magic))
        then Ok (s, inl ELF_E_NOT_COMPRESSED)
        else
        let gsize := be_value (zsub b 4 8) in
        if u64 (gsize + 4 + 8 + 6 + 5) <? ed_size d then Ok (s, inl ELF_E_NOT_COMPRESSED)
        else
          match decompress al junk z (zsub b 12 (ed_size d - 12)) gsize with
          | Ok out =>
            s <- reset_rawdata al aligned junk f (set_hdr s (with_size gsize)) out gsize (sh_addralign h)
                   (data_type f (sh_type h) (sh_addralign h)) ;;
            Ok (set_z s (Some out) (s_zsize s) (s_zalign s), inr 1)
          | Err e => Ok (s, inl e)
          | UB => UB
          | Fuel => Fuel
          end
      end
    end
  else Ok (s, inl ELF_E_UNKNOWN_COMPRESSION_TYPE).

(* A section as file_read_elf leaves it (elf_begin.c:383-425): rawdata_base is
   preset when the headers could be used in place ([pre]) and it is in range. *)
Definition open_sec (f : efile) (pre : bool) (index : Z) (h : shdr) : outcome sec :=
  base <- (if pre && f_map f && (sh_offset h <? f_max f) && (sh_size h <=? f_max f - sh_offset h)
           then b <- map_bytes f (sh_offset h) (sh_size h) ;; Ok (Some b)
           else Ok None) ;;
  Ok (Sec index h base edat0 false false edat0 [] None None 0 0).
(* A section made by elf_newscn, with a header filled in by the user. *)
Definition new_sec (index : Z) (h : shdr) : sec :=
  Sec index h None edat0 true false edat0 [] None None 0 0.
