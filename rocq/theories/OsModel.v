(* Model of the search for a section by its offset: libelf/elf32_offscn.c and gelf_offscn.c.  Locks are left out. *)
From Verif Require Import Base ElfErr.

(* the members of a section header that count here *)
Record oshdr := Oshdr { o_off : Z; o_size : Z; o_type : Z }.

(* the descriptor: a null pointer, its kind and class, and the blocks of sections (Elf_ScnList) with their headers,
   None for a header that was not read *)
Record odesc := Odesc { d_elf : bool; d_c64 : bool; d_blocks : list (list (option oshdr)) }.

(* elf32_offscn.c:73-84: one block; [i] is the number of its first section, [best] the section remembered.
   A header that was not read is a null pointer.  The boolean says that the search is over *)
Fixpoint scan (l : list (option oshdr)) (i off : Z) (best : option Z) : outcome (bool * option Z) :=
  match l with
  | [] => Ok (false, best)
  | None :: _ => UB
  | Some h :: r =>
      if o_off h =? off then
        if negb (o_size h =? 0) && negb (o_type h =? 8) then Ok (true, Some i) else scan r (i + 1) off (Some i)
      else scan r (i + 1) off best
  end.

(* elf32_offscn.c:71-92: the blocks.  Simplified: the sections are numbered through *)
Fixpoint scan_all (b : list (list (option oshdr))) (i off : Z) (best : option Z) : outcome (option Z) :=
  match b with
  | [] => Ok best
  | l :: r => ' p <- scan l i off best ;; if fst p : bool then Ok (snd p) else scan_all r (i + zlen l) off (snd p)
  end.

(* elf32_getshdr.c:48-246, seen from here: the headers of the first block, if they can be read *)
Definition load_first (read : option (list oshdr)) (b : list (list (option oshdr))) : outcome (list (list (option oshdr))) :=
  match b with
  | (None :: _) :: r => match read with None => Err ELF_E_INVALID_SECTION_HEADER | Some l => Ok (map Some l :: r) end
  | _ => Ok b
  end.

(* elf32_offscn.c:45-98: the number of the section.  When only an empty section matches, the error is set and
   the section given all the same *)
Definition offscn (d : option odesc) (read : option (list oshdr)) (off : Z) : outcome Z :=
  match d with
  | None => Err ELF_E_NOERROR
  | Some d =>
      if negb (d_elf d) then Err ELF_E_INVALID_HANDLE
      else
        b <- load_first read (d_blocks d) ;;
        r <- scan_all b 0 off None ;;
        match r with None => Err ELF_E_INVALID_OFFSET | Some i => Ok i end
  end.

(* gelf_offscn.c:39-55 *)
Definition gelf_offscn (d : option odesc) (read : option (list oshdr)) (off : Z) : outcome Z :=
  match d with
  | None => UB  (* elf->class *)
  | Some e => if negb (d_c64 e) && negb (u32 off =? off) then Err ELF_E_INVALID_OFFSET else offscn d read off
  end.
