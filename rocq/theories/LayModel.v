(* Layout of a file about to be written: libelf/elf32_updatenull.c (and elf64_updatenull.c, the same source with LIBELFBITS 64).
   Not modelled: default_ehdr (identification bytes, version, e_shnum), the dirty flags, loading of program headers, section headers
   and raw data that were not loaded yet (they are taken as loaded), and the list of data created for a moved section without one.
   off_t, size_t and long are 64 bits; GElf_Word, Elf32_Word and Elf64_Word are 32 bits wide. *)
From Verif Require Import Base ElfErr.

(* Elf_Data: d_align, d_size, d_off, d_version *)
Record dblk := Db { d_align : Z; d_size : Z; d_off : Z; d_ver : Z }.
(* a section: sh_type, sh_flags, sh_addralign, sh_entsize, sh_offset, sh_size; the list of data, if there is one (the first one
   replaced by the raw data if it has no buffer, :274-276); rawdata.d.d_size; the uncompressed size in the compression header *)
Record scn := Sc { s_type : Z; s_flags : Z; s_align : Z; s_ent : Z; s_off : Z; s_size : Z; s_data : option (list dblk); s_raw : Z; s_chsize : option Z }.
(* the file: class, ELF_F_LAYOUT, ELF_F_PERMISSIVE, e_type == ET_REL, the size of a hash entry (elf-knowledge.h:75-78), number of program headers (None: no table), e_phoff,
   e_shoff, the sections from section 1 on (None: not even section 0) *)
Record elfl := El { l_64 : bool; l_layout : bool; l_perm : bool; l_rel : bool; l_hash : Z; l_phnum : option Z; l_phoff : Z; l_shoff : Z; l_scns : option (list scn) }.

Definition SHT_NOBITS : Z := 8.
Definition SHF_COMPRESSED : Z := 2048.
(* lib/system.h:64, also true of 0 *)
Definition powerof2 (x : Z) : bool := Z.land x (x - 1) =? 0.
(* elf_typesize of ELF_T_EHDR, ELF_T_PHDR, ELF_T_SHDR (gelf_fsize.c:46-104), times a count, in size_t *)
Definition ehdr_size (c64 : bool) : Z := if c64 then 64 else 52.
Definition phdr_size (c64 : bool) (n : Z) : Z := u64 ((if c64 then 56 else 32) * n).
Definition shdr_size (c64 : bool) (n : Z) : Z := u64 ((if c64 then 64 else 40) * n).
Definition shdr_align (c64 : bool) : Z := if c64 then 8 else 4.

(* :217-257 the entry size by section type *)
Definition entsize (l : elfl) (s : scn) : outcome Z :=
  let t := s_type s in let c := l_64 l in
  if t =? 2 then Ok (if c then 24 else 16)
  else if t =? 4 then Ok (if c then 24 else 12)
  else if t =? 17 then (if l_rel l then Ok 4 else Err ELF_E_GROUP_NOT_REL)
  else if t =? 18 then Ok 4
  else if t =? 5 then Ok (l_hash l)
  else if t =? 6 then Ok (if c then 16 else 8)
  else if t =? 9 then Ok (if c then 16 else 8)
  else if t =? 11 then Ok (if c then 24 else 16)
  else if t =? 1879048186 then Ok 28
  else if t =? 1879048188 then Ok 4
  else Ok (u32 (s_ent s)).

(* :268-320: the data of a section: the offset so far, sh_align so far *)
Fixpoint lay_data (layout : bool) (size : Z) (ds : list dblk) (offset align : Z) : outcome (list dblk * Z * Z) :=
  match ds with
  | [] => Ok ([], offset, align)
  | d :: r =>
    if (d_ver d =? 0) || (2 <=? d_ver d) then Err ELF_E_UNKNOWN_VERSION
    else if negb (powerof2 (d_align d)) then Err ELF_E_INVALID_ALIGN
    else
      let align := u32 (Z.max align (d_align d)) in
      if layout then
        if size <? u32 (d_off d + d_size d) then Err ELF_E_SECTION_TOO_SMALL
        else ' (r', off, al) <- lay_data layout size r offset align ;; Ok (d :: r', off, al)
      else
        let off := s64 (Z.land (u64 (offset + d_align d - 1)) (u64 (Z.lnot (d_align d - 1)))) in
        ' (r', off', al) <- lay_data layout size r (s64 (off + d_size d)) align ;;
        Ok (Db (d_align d) (d_size d) off (d_ver d) :: r', off', al)
  end.
(* signed addition of off_t: overflow is undefined *)
Definition sadd (a b : Z) : outcome Z := if (- two63 <=? a + b) && (a + b <? two63) then Ok (a + b) else UB.

(* :203-400: one section, [size] the size of the file so far *)
Definition lay_scn (l : elfl) (size : Z) (s : scn) : outcome (scn * Z) :=
  let align := u32 (if s_align s =? 0 then 1 else s_align s) in
  if negb (powerof2 align) then Err ELF_E_INVALID_ALIGN
  else
    ent <- entsize l s ;;
    ' (ds, offset, align) <- match s_data s with
                             | Some ds => ' (ds', off, al) <- lay_data (l_layout l) (s_size s) ds 0 align ;; Ok (Some ds', off, al)
                             | None => Ok (None, s64 (s_raw s), align)
                             end ;;
    ' (s', size) <-
      (if l_layout l then
         let e := if s_type s =? SHT_NOBITS then 0 else if l_64 l then u64 (s_off s + s_size s) else u32 (s_off s + s_size s) in
         let size := s64 (Z.max (u32 size) e) in
         if negb (powerof2 (s_align s)) || ((if s_align s =? 0 then 1 else s_align s) <? align) then Err ELF_E_INVALID_ALIGN
         else Ok (Sc (s_type s) (s_flags s) (s_align s) ent (s_off s) (s_size s) ds (s_raw s) (s_chsize s), size)
       else
         t <- sadd size (align - 1) ;;
         let size := Z.land t (u32 (Z.lnot (align - 1))) in
         let s' := Sc (s_type s) (s_flags s) align ent (u32 size) (u32 offset) ds (s_raw s) (s_chsize s) in
         size <- (if s_type s =? SHT_NOBITS then Ok size else sadd size offset) ;;
         Ok (s', size)) ;;
    if negb (s_ent s' =? 0) && negb (s_ent s' =? 1) && negb (l_perm l) then
      sz <- (if Z.land (s_flags s) SHF_COMPRESSED =? 0 then Ok (u32 (s_size s'))
             else match s_chsize s with Some n => Ok (u32 n) | None => Err ELF_E_INVALID_DATA end) ;;
      if negb (sz mod s_ent s' =? 0) then Err ELF_E_INVALID_SHENTSIZE else Ok (s', size)
    else Ok (s', size).
Fixpoint lay_scns (l : elfl) (size : Z) (ss : list scn) : outcome (list scn * Z) :=
  match ss with
  | [] => Ok ([], size)
  | s :: r => ' (s', size) <- lay_scn l size s ;; ' (r', size) <- lay_scns l size r ;; Ok (s' :: r', size)
  end.
(* :124-446 __elfNN_updatenull_wrlock: the file as changed and the size of the file *)
Definition updatenull (l : elfl) : outcome (elfl * Z) :=
  let size := ehdr_size (l_64 l) in
  ' (phoff, size) <- match l_phnum l with
    | None => Ok (l_phoff l, size)
    | Some n => if l_layout l then Ok (l_phoff l, s64 (Z.max size (u64 (l_phoff l + phdr_size (l_64 l) n))))
                else Ok (ehdr_size (l_64 l), s64 (size + phdr_size (l_64 l) n))
    end ;;
  match l_scns l with
  | None => Ok (El (l_64 l) (l_layout l) (l_perm l) (l_rel l) (l_hash l) (l_phnum l) phoff (l_shoff l) None, size)
  | Some ss =>
    ' (ss', size) <- lay_scns l size ss ;;
    let shnum := 1 + zlen ss in
    let al := shdr_align (l_64 l) in
    ' (shoff, size) <-
      (if l_layout l then Ok (l_shoff l, s64 (Z.max (u32 size) (u64 (l_shoff l + shdr_size (l_64 l) shnum))))
       else
         let size := s64 (Z.land (u64 (size + al - 1)) (u64 (Z.lnot (al - 1)))) in
         Ok (u32 size, s64 (size + shdr_size (l_64 l) shnum))) ;;
    Ok (El (l_64 l) (l_layout l) (l_perm l) (l_rel l) (l_hash l) (l_phnum l) phoff shoff (Some ss'), size)
  end.
