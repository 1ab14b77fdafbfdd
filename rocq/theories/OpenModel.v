(* Opening an ELF file: libelf/elf_begin.c (get_shnum, file_read_elf,
   __libelf_read_mmaped_file, read_unmmaped_file), common.h (determine_kind),
   elf_memory.c, and the three functions resolving extended numbers:
   elf_getshdrnum.c, elf_getshdrstrndx.c, elf_getphdrnum.c.

   Simplifications: memory for the descriptor is always available; the file does not
   change; the ELF header may be accessed unaligned (ALLOW_UNALIGNED, as on x86), and
   whether the section header table may is the parameter [al]; of a section header only
   five fields are kept; a section header in memory is read as a whole; the 32-bit and
   64-bit variants of the code are one definition with parameter [c64].  Archives and
   unknown files give a descriptor without further reading.  size_t has 64 bits. *)
From Verif Require Import Base ElfErr.

(* Where the bytes come from: an image in memory of which an access outside is UB, or
   a file behind a descriptor, where a read delivers what there is. *)
Record source := Src {
  c_map : bool;        (* map_address != NULL *)
  c_fd : bool;         (* fildes is valid *)
  c_img : bytes }.
Definition memrd (c : source) (o n : Z) : outcome bytes :=
  if (0 <=? o) && (o + n <=? zlen (c_img c)) then Ok (zsub (c_img c) o n) else UB.
(* pread_retry of n bytes, all or an error *)
Definition fdrd (c : source) (o n : Z) : outcome bytes :=
  if negb (c_fd c) then Err ELF_E_INVALID_FILE
  else if (0 <=? o) && (o + n <=? zlen (c_img c)) then Ok (zsub (c_img c) o n)
  else Err ELF_E_INVALID_ELF.
Definition access (c : source) (o n : Z) : outcome bytes :=
  if c_map c then memrd c o n else fdrd c o n.

(* A field in memory: loaded in host order; CONVERT (byte swap) if the file has the
   other order. *)
Definition fld (le native : bool) (b : bytes) : Z :=
  let b := if native then b else rev b in if le then le_value b else be_value b.

(* elf.h Elf32_Ehdr, Elf64_Ehdr, Elf32_Shdr, Elf64_Shdr: offset and width *)
Definition EI_CLASS := 4. Definition EI_DATA := 5. Definition EI_VERSION := 6.
Definition sz_ehdr (c64 : bool) : Z := if c64 then 64 else 52.
Definition sz_shdr (c64 : bool) : Z := if c64 then 64 else 40.
Definition sz_phdr (c64 : bool) : Z := if c64 then 56 else 32.
Definition e_phoff (c64 : bool) : Z * Z := if c64 then (32, 8) else (28, 4).
Definition e_shoff (c64 : bool) : Z * Z := if c64 then (40, 8) else (32, 4).
Definition e_phnum (c64 : bool) : Z * Z := if c64 then (56, 2) else (44, 2).
Definition e_shnum (c64 : bool) : Z * Z := if c64 then (60, 2) else (48, 2).
Definition e_shstrndx (c64 : bool) : Z * Z := if c64 then (62, 2) else (50, 2).
Definition sh_type (c64 : bool) : Z * Z := (4, 4).
Definition sh_offset (c64 : bool) : Z * Z := if c64 then (24, 8) else (16, 4).
Definition sh_size (c64 : bool) : Z * Z := if c64 then (32, 8) else (20, 4).
Definition sh_link (c64 : bool) : Z * Z := if c64 then (40, 4) else (24, 4).
Definition sh_info (c64 : bool) : Z * Z := if c64 then (44, 4) else (28, 4).

Definition sub_field (le native : bool) (b : bytes) (f : Z * Z) : Z := fld le native (zsub b (fst f) (snd f)).

(* common.h:40-66 determine_kind; what is at off for len bytes.  ELF_K_NONE 0,
   ELF_K_AR 1, ELF_K_ELF 3. *)
Definition ARMAG : bytes := [33; 60; 97; 114; 99; 104; 62; 10].
Definition ELFMAG : bytes := [127; 69; 76; 70].
Definition byte_at (b : bytes) (i : Z) : Z := match znth b i with Some x => x | None => 0 end.
Definition list_eqb (a b : bytes) : bool := if list_eq_dec Z.eq_dec a b then true else false.
Definition determine_kind (rd : Z -> Z -> outcome bytes) (len : Z) : outcome Z :=
  a <- (if 8 <=? len then b <- rd 0 8 ;; Ok (list_eqb b ARMAG) else Ok false) ;;
  if a : bool then Ok 1
  else if 16 <=? len then
    b <- rd 0 16 ;;
    if list_eqb (zsub b 0 4) ELFMAG
       && ((byte_at b EI_CLASS =? 1) || (byte_at b EI_CLASS =? 2))
       && ((byte_at b EI_DATA =? 1) || (byte_at b EI_DATA =? 2))
       && (byte_at b EI_VERSION =? 1)
    then Ok 3 else Ok 0
  else Ok 0.

(* elf_begin.c:72-262 get_shnum *)
Definition get_shnum (c : source) (le c64 native : bool) (off maxsize : Z) : outcome Z :=
  b <- access c (off + fst (e_shnum c64)) (snd (e_shnum c64)) ;;
  let shnum := fld le native b in
  b <- access c (off + fst (e_shoff c64)) (snd (e_shoff c64)) ;;
  let shoff := fld le native b in
  r <- (if (shnum =? 0) && negb (shoff =? 0) then
          if (maxsize <=? shoff)
             || (if c64 then maxsize <? u64 (shoff + 64) else maxsize - shoff <? 40)
          then Ok None
          else b <- access c (off + shoff + fst (sh_size c64)) (snd (sh_size c64)) ;;
               let size := fld le native b in
               if c64 && (two32 - 1 <? size) then Err ELF_E_INVALID_ELF else Ok (Some size)
        else Ok (Some shnum)) ;;
  match r with
  | None => Ok 0
  | Some n => if (maxsize <? shoff) || (maxsize - shoff <? u64 (sz_shdr c64 * n)) then Ok 0 else Ok n
  end.

Record shdr := Shdr { h_type : Z; h_offset : Z; h_size : Z; h_link : Z; h_info : Z }.
(* Elf_Scn: shdr (None: NULL), rawdata_base relative to the start of the file,
   shndx_index *)
Record scn := Scn { n_index : Z; n_shdr : option shdr; n_raw : option Z; n_shndx : Z }.
Record elf := Elf {
  l_src : source; l_c64 : bool; l_native : bool;
  l_start : Z;                     (* start_offset *)
  l_max : Z;                       (* maximum_size *)
  l_ehdr : option bytes;           (* the copied header; None: used in place *)
  l_scns : list scn }.

Definition read_shdr (c : source) (le native c64 : bool) (o : Z) : outcome shdr :=
  b <- memrd c o (sz_shdr c64) ;;
  let f x := sub_field le native b x in
  Ok (Shdr (f (sh_type c64)) (f (sh_offset c64)) (f (sh_size c64)) (f (sh_link c64)) (f (sh_info c64))).

Definition set_shndx (l : list scn) (i v : Z) : list scn :=
  match znth l i with Some x => zset l i (Scn (n_index x) (n_shdr x) (n_raw x) v) | None => l end.

(* elf_begin.c:390-420 and 493-523: k sections still to do, cnt done. *)
Fixpoint scn_loop (k : nat) (c : source) (le c64 : bool) (off shoff maxsize scncnt cnt : Z) (l : list scn)
  : outcome (list scn) :=
  match k with
  | O => Ok l
  | S k =>
    h <- read_shdr c le true c64 (off + shoff + cnt * sz_shdr c64) ;;
    let raw := if (h_offset h <? maxsize) && (h_size h <=? maxsize - h_offset h)
               then Some (off + h_offset h) else None in
    match znth l cnt with
    | None => UB
    | Some x =>
      let l := zset l cnt (Scn cnt (Some h) raw (n_shndx x)) in
      let l := if (h_type h =? 18) && (h_link h <? scncnt) then set_shndx l (h_link h) cnt else l in
      let l := match znth l cnt with
               | Some y => if n_shndx y =? 0 then set_shndx l cnt (-1) else l
               | None => l
               end in
      scn_loop k c le c64 off shoff maxsize scncnt (cnt + 1) l
    end
  end.

(* elf_begin.c:266-531 file_read_elf; rdmmap: cmd == ELF_C_READ_MMAP *)
Definition file_read_elf (c : source) (le al rdmmap : bool) (c64 native : bool) (off maxsize : Z) : outcome elf :=
  n <- get_shnum c le c64 native off maxsize ;;
  hdr <- (if c_map c && native then Ok None
          else b <- access c off (sz_ehdr c64) ;; Ok (Some b)) ;;
  b <- access c (off + fst (e_shoff c64)) (snd (e_shoff c64)) ;;
  let shoff := fld le native b in
  if c_map c && native && negb rdmmap && al then
    if ((0 <? n) && (maxsize <=? shoff)) || (u64 (maxsize - shoff) <? u64 (n * sz_shdr c64))
    then Err ELF_E_INVALID_ELF
    else l <- scn_loop (Z.to_nat n) c le c64 off shoff maxsize n 0 (repeat (Scn 0 None None 0) (Z.to_nat n)) ;;
         Ok (Elf c c64 native off maxsize hdr l)
  else
    Ok (Elf c c64 native off maxsize hdr
          (map (fun i => Scn (Z.of_nat i) None None 0) (seq 0 (Z.to_nat n)))).

(* What opening gives: an ELF descriptor, an archive, something unknown. *)
Inductive opened := IsElf (e : elf) | IsAr | IsOther.

Definition classify (c : source) (le al rdmmap : bool) (off maxsize : Z) : outcome opened :=
  b <- access c off 16 ;;
  let native := Bool.eqb (byte_at b EI_DATA =? 1) le in
  e <- file_read_elf c le al rdmmap (byte_at b EI_CLASS =? 2) native off maxsize ;; Ok (IsElf e).

(* elf_begin.c:532-562 __libelf_read_mmaped_file *)
Definition read_mmaped (img : bytes) (fd le al rdmmap : bool) (off maxsize : Z) : outcome opened :=
  let c := Src true fd img in
  k <- determine_kind (fun o n => memrd c (off + o) n) maxsize ;;
  if k =? 3 then classify c le al rdmmap off maxsize
  else if k =? 1 then Ok IsAr else Ok IsOther.

(* elf_memory.c:40-51 *)
Definition elf_memory (img : bytes) (le al : bool) : outcome opened :=
  read_mmaped img false le al false 0 (zlen img).

(* elf_begin.c:565-627 read_unmmaped_file *)
Definition read_unmmaped (img : bytes) (le : bool) (off maxsize : Z) : outcome opened :=
  let c := Src false true img in
  let nread := Z.max 0 (Z.min (Z.min 64 maxsize) (zlen img - off)) in
  k <- determine_kind (fun o n => fdrd c (off + o) n) nread ;;
  if k =? 1 then Ok IsAr
  else if k =? 3 then
    b <- fdrd c off 16 ;;
    if sz_ehdr (byte_at b EI_CLASS =? 2) <=? nread then classify c le true false off maxsize else Ok IsOther
  else Ok IsOther.

(* The field of the ELF header of a descriptor *)
Definition ehdr_field (le : bool) (e : elf) (f : Z * Z) : outcome Z :=
  match l_ehdr e with
  | Some b => Ok (sub_field le (l_native e) b f)
  | None => b <- memrd (l_src e) (l_start e + fst f) (snd f) ;; Ok (fld le true b)
  end.

(* elf_getshdrnum.c:40-69 for a descriptor with one block of sections *)
Definition elf_getshdrnum (e : elf) : outcome Z :=
  match znth (l_scns e) (zlen (l_scns e) - 1) with
  | Some x => Ok (1 + n_index x)
  | None => Ok 0
  end.

Definition SHN_XINDEX := 65535.
Definition PN_XNUM := 65535.

(* elf_getshdrstrndx.c:44-236 *)
Definition elf_getshdrstrndx (le al : bool) (e : elf) : outcome Z :=
  num <- ehdr_field le e (e_shstrndx (l_c64 e)) ;;
  if num =? SHN_XINDEX then
    match l_scns e with
    | [] => Err ELF_E_INVALID_SECTION_HEADER
    | x :: _ =>
      match n_shdr x with
      | Some h => Ok (h_link h)
      | None =>
        off <- ehdr_field le e (e_shoff (l_c64 e)) ;;
        if c_map (l_src e) && l_native e && al then
          if u64 (l_max e - off) <? sz_shdr (l_c64 e) then Err ELF_E_INVALID_SECTION_HEADER
          else h <- read_shdr (l_src e) le true (l_c64 e) (l_start e + off) ;; Ok (h_link h)
        else                                                (* 138-139, 203-204 *)
          b <- fdrd (l_src e) off (sz_shdr (l_c64 e)) ;;
          Ok (sub_field le (l_native e) b (sh_link (l_c64 e)))
      end
    end
  else Ok num.

(* elf_getphdrnum.c:40-77 *)
Definition getphdrnum_rdlock (le : bool) (e : elf) : outcome Z :=
  n <- ehdr_field le e (e_phnum (l_c64 e)) ;;
  if n =? PN_XNUM then
    match l_scns e with
    | x :: _ => match n_shdr x with Some h => Ok (h_info h) | None => Ok n end
    | [] => Ok n
    end
  else Ok n.
(* elf_getphdrnum.c:79-120; the program headers were not created or read yet *)
Definition elf_getphdrnum (le : bool) (e : elf) : outcome Z :=
  n <- getphdrnum_rdlock le e ;;
  off <- ehdr_field le e (e_phoff (l_c64 e)) ;;
  if off =? 0 then Ok 0
  else if l_max e <=? off then Err ELF_E_INVALID_DATA
  else if (two64 - 1) / sz_phdr (l_c64 e) <? n then Err ELF_E_INVALID_DATA
  else if l_max e - off <? u64 (n * sz_phdr (l_c64 e)) then Ok ((l_max e - off) / sz_phdr (l_c64 e))
  else Ok n.
