(* The flag functions of libelf: elf_flagelf.c, elf_flagehdr.c, elf_flagphdr.c,
   elf_flagscn.c, elf_flagshdr.c, elf_flagdata.c.

   Simplifications: a NULL argument is a target that names nothing; the handle's
   validity beyond its kind is not modelled; unsigned int is 32 bits wide. *)
From Verif Require Import Base ElfErr.

Definition ELF_K_ELF := 3.                                    (* libelf.h:187 *)
Definition ELF_C_CLR := 4. Definition ELF_C_SET := 5.         (* libelf.h:145-146 *)
Definition ELF_F_DIRTY := 1. Definition ELF_F_LAYOUT := 4. Definition ELF_F_PERMISSIVE := 8.   (* libelf.h:166-171 *)

(* The flag words of one descriptor: elf->flags, ehdr_flags, phdr_flags and for
   each section flags and shdr_flags (libelfP.h). *)
Record fstate := FState {
  fs_kind : Z; fs_elf : Z; fs_ehdr : Z; fs_phdr : Z; fs_scn : list (Z * Z) }.

Inductive target := TNull | TElf | TEhdr | TPhdr | TScn (i : nat) | TShdr (i : nat) | TData (i : nat).

(* word |= flags & mask, word &= ~(flags & mask), or no change and an error *)
Definition flag_word (cmd flags mask w : Z) : option Z :=
  if cmd =? ELF_C_SET then Some (Z.lor w (Z.land flags mask))
  else if cmd =? ELF_C_CLR then Some (Z.land w (Z.lxor (two32 - 1) (Z.land flags mask)))
  else None.

Definition upd_scn (l : list (Z * Z)) (i : nat) (p : Z * Z) : list (Z * Z) :=
  firstn i l ++ p :: skipn (S i) l.

(* elf_flagelf.c:40-67, elf_flagehdr.c:40-65, elf_flagphdr.c:40-65, elf_flagscn.c:40-65,
   elf_flagshdr.c:40-65, elf_flagdata.c:40-68 (the flags of the section the data
   belongs to): the state, the result and the error set. *)
Definition elf_flag (t : target) (cmd flags : Z) (s : fstate) : fstate * Z * option Z :=
  let word (mask w : Z) (put : Z -> fstate) :=
    if negb (fs_kind s =? ELF_K_ELF) then (s, 0, Some ELF_E_INVALID_HANDLE)
    else match flag_word cmd flags mask w with
         | Some w' => (put w', w', None)
         | None => (s, 0, Some ELF_E_INVALID_COMMAND)
         end in
  match t with
  | TNull => (s, 0, None)
  | TElf => word (Z.lor ELF_F_DIRTY (Z.lor ELF_F_LAYOUT ELF_F_PERMISSIVE)) (fs_elf s)
              (fun w => FState (fs_kind s) w (fs_ehdr s) (fs_phdr s) (fs_scn s))
  | TEhdr => word ELF_F_DIRTY (fs_ehdr s)
              (fun w => FState (fs_kind s) (fs_elf s) w (fs_phdr s) (fs_scn s))
  | TPhdr => word ELF_F_DIRTY (fs_phdr s)
              (fun w => FState (fs_kind s) (fs_elf s) (fs_ehdr s) w (fs_scn s))
  | TScn i | TData i =>
    match nth_error (fs_scn s) i with
    | None => (s, 0, None)
    | Some (a, b) => word ELF_F_DIRTY a
              (fun w => FState (fs_kind s) (fs_elf s) (fs_ehdr s) (fs_phdr s) (upd_scn (fs_scn s) i (w, b)))
    end
  | TShdr i =>
    match nth_error (fs_scn s) i with
    | None => (s, 0, None)
    | Some (a, b) => word ELF_F_DIRTY b
              (fun w => FState (fs_kind s) (fs_elf s) (fs_ehdr s) (fs_phdr s) (upd_scn (fs_scn s) i (a, w)))
    end
  end.
