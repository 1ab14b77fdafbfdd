(* libdwelf/dwelf_elf_gnu_debuglink.c, libdwelf/dwelf_dwarf_gnu_debugaltlink.c,
   libdwelf/dwelf_scn_gnu_compressed_size.c, libdwelf/dwelf_elf_gnu_build_id.c.

   Simplifications: a file is the list of what libelf gives for its sections; strings are given
   without their NUL. *)
From Verif Require Import Base XlateModel NoteModel CrcModel.

(* memchr (buf, '\0', n) from p on: a byte behind the buffer is not there to be read *)
Fixpoint memchr_nul (buf : bytes) (n : nat) (p : Z) : outcome (option Z) :=
  match n with
  | O => Ok None
  | S n => match znth buf p with
           | None => UB
           | Some b => if b =? 0 then Ok (Some p) else memchr_nul buf n (p + 1)
           end
  end.

(* .gnu_debuglink *)
Definition debuglink_name : bytes := [46; 103; 110; 117; 95; 100; 101; 98; 117; 103; 108; 105; 110; 107].
(* a section: whether gelf_getshdr works, the string that elf_strptr gives for its name, and the
   bytes that elf_rawdata gives (None: no data or no buffer) *)
Record lsec := LSec { l_shdr : bool; l_name : option bytes; l_raw : option bytes }.
(* dwelf_elf_gnu_debuglink.c:43-58: the search of the section *)
Fixpoint find_link (ss : list lsec) : option lsec :=
  match ss with
  | [] => None
  | s :: ss =>
    if negb (l_shdr s) then None
    else match l_name s with
         | None => None
         | Some n => if beq n debuglink_name then Some s else find_link ss
         end
  end.
(* dwelf_elf_gnu_debuglink.c:64-98: the string begins at the start of the data; le: the byte
   order of the file.  The result is the checksum, None for NULL. *)
Definition link_data (le : bool) (raw : bytes) : outcome (option Z) :=
  if zlen raw <=? 4 then Ok None
  else
    r <- memchr_nul raw (Z.to_nat (zlen raw - 4)) 0 ;;
    match r with
    | None => Ok None
    | Some _ => let w := zsub raw (zlen raw - 4) 4 in Ok (Some (if le then le_value w else be_value w))
    end.
(* dwelf_elf_gnu_debuglink.c:35-99; shstrndx: whether elf_getshdrstrndx works; ehdr: whether
   gelf_getehdr does.  The result: the data that the name begins and the checksum *)
Definition gnu_debuglink (shstrndx ehdr le : bool) (ss : list lsec) : outcome (option (bytes * Z)) :=
  if negb shstrndx then Ok None
  else match find_link ss with
       | None => Ok None
       | Some s =>
         match l_raw s with
         | None => Ok None
         | Some raw =>
           r <- link_data le raw ;;
           match r with
           | None => Ok None
           | Some crc => if ehdr then Ok (Some (raw, crc)) else Ok None
           end
         end
       end.

(* dwelf_dwarf_gnu_debugaltlink.c:36-56: the length of the build ID and where it begins; data:
   the section .gnu_debugaltlink.  0: no section, -1: malformed *)
Definition gnu_debugaltlink (data : option bytes) : outcome (Z * option Z) :=
  match data with
  | None => Ok (0, None)
  | Some d =>
    r <- memchr_nul d (length d) 0 ;;
    match r with
    | None => Ok (-1, None)
    | Some p =>
      let len := zlen d - (p + 1) in
      if (len =? 0) || negb (u64 (s64 len) =? len) then Ok (-1, None)
      else Ok (s64 len, Some (p + 1))
    end
  end.

(* dwelf_scn_gnu_compressed_size.c:36-77; raw: what elf_rawdata gives *)
Definition gnu_compressed_size (shdr alloc : bool) (type : Z) (raw : option bytes) : Z :=
  if negb shdr then -1
  else if alloc || (type =? 0) || (type =? SHT_NOBITS) then -1
  else match raw with
       | None => -1
       | Some d =>
         if (12 <=? zlen d) && beq (zsub d 0 4) [90; 76; 73; 66] then
           let size := be_value (zsub d 4 8) in
           if u64 (size + 4 + 8 + 6 + 5) <? zlen d then -1 else s64 size
         else -1
       end.

Definition NO_VADDR : Z := 18446744073709551615.
Definition NT_GNU_BUILD_ID : Z := 3.
(* the data of a note section or segment: its type, the bytes in memory and their number *)
Record ndata := NData { d_ty : Z; d_mem : mem; d_size : Z }.
(* dwelf_elf_gnu_build_id.c:38-61: where the build ID is in the data, its address and its length *)
Fixpoint check_notes (fuel : nat) (le : bool) (d : ndata) (vaddr pos : Z) : outcome (option (Z * Z * Z)) :=
  match fuel with
  | O => Fuel
  | S fuel =>
    r <- gelf_getnote le (Some (d_ty d)) (d_mem d) (d_size d) pos ;;
    if gn_ret r =? 0 then Ok None
    else match gn_result r, gn_name r, gn_desc r with
         | Some h, Some n, Some p =>
           let next := check_notes fuel le d vaddr (gn_ret r) in
           if (nh_type h =? NT_GNU_BUILD_ID) && (nh_namesz h =? 4) then
             chk (inside (d_size d) n 4) (
             if beq (rdm (d_mem d) n 4) [71; 78; 85; 0]
             then Ok (Some (p, if vaddr =? NO_VADDR then 0 else u64 (vaddr + p), s32 (nh_descsz h)))
             else next)
           else next
         | _, _, _ => UB
         end
  end.
(* a section or segment: whether its header is there and says that it has notes; whether it has an
   address; sh_addr or p_vaddr; the address of the section after relocation; its data, if any *)
Record nsec := NSec { n_note : bool; n_alloc : bool; n_addr : Z; n_reloc : option Z; n_data : option ndata }.
(* dwelf_elf_gnu_build_id.c:107-116; rel: whether it is a section of a relocatable module *)
Definition note_vaddr (rel : bool) (s : nsec) : Z :=
  if negb (n_alloc s) then NO_VADDR
  else if negb rel then n_addr s
  else match n_reloc s with Some a => a | None => NO_VADDR end.
(* dwelf_elf_gnu_build_id.c:83-124: the first one with a build ID.  i counts them.  For a segment
   the address is p_vaddr *)
Fixpoint find_ids (fuel : nat) (le rel : bool) (i : nat) (ss : list nsec) : outcome (option (nat * (Z * Z * Z))) :=
  match ss with
  | [] => Ok None
  | s :: ss =>
    if n_note s then
      match n_data s with
      | None => find_ids fuel le rel (S i) ss
      | Some d =>
        r <- check_notes fuel le d (note_vaddr rel s) 0 ;;
        match r with Some x => Ok (Some (i, x)) | None => find_ids fuel le rel (S i) ss end
      end
    else find_ids fuel le rel (S i) ss
  end.
(* dwelf_elf_gnu_build_id.c:65-126: the result and what is found.  phdrs: None if
   elf_getphdrnum fails; only looked at in a file without sections *)
Definition find_elf_build_id (fuel : nat) (le rel : bool) (secs : list nsec) (phdrs : option (list nsec)) : outcome (Z * option (nat * (Z * Z * Z))) :=
  match secs with
  | [] => match phdrs with
          | None => Ok (-1, None)
          | Some ps => r <- find_ids fuel le false 0 ps ;; Ok (match r with Some _ => 1 | None => 0 end, r)
          end
  | _ => r <- find_ids fuel le rel 0 secs ;; Ok (match r with Some _ => 1 | None => 0 end, r)
  end.
(* dwelf_elf_gnu_build_id.c:147-158 *)
Definition elf_gnu_build_id (fuel : nat) (le : bool) (secs : list nsec) (phdrs : option (list nsec)) : outcome (Z * option (nat * (Z * Z * Z))) :=
  ' (r, x) <- find_elf_build_id fuel le false secs phdrs ;;
  match x with
  | Some (_, (_, _, len)) => Ok (len, x)
  | None => Ok (r, x)
  end.
