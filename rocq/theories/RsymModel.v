(* Model of the choice of symbols by ranlib and ar: src/arlib.c arlib_add_symbols.
   What libelf tells of the sections of a member is a record: whether there is a header, its type, size, entry size and info, whether there are data, and the symbols by their number with
   the section they are in and the name that elf_strptr gives. *)
From Verif Require Import Base.

Record rsym := Rsym { rs_shndx : Z; rs_name : option bytes }.
Record rsec := Rsec { rc_hdr : bool; rc_type : Z; rc_data : bool; rc_size : Z; rc_ent : Z; rc_info : Z; rc_sym : Z -> option rsym }.
Definition SHT_SYMTAB : Z := 2. Definition SHT_DYNSYM : Z := 11. Definition SHN_UNDEF : Z := 0.
Definition ET_REL : Z := 1. Definition ET_EXEC : Z := 2. Definition ET_DYN : Z := 3.

(* arlib.c:257-273, n is nsyms - ndx *)
Fixpoint sym_names (n : nat) (ndx : Z) (sym : Z -> option rsym) : list bytes :=
  match n with
  | O => []
  | S n => match sym ndx with
           | None => []
           | Some y => if rs_shndx y =? SHN_UNDEF then [] else match rs_name y with Some s => [s] | None => [] end
           end ++ sym_names n (ndx + 1) sym
  end.
(* arlib.c:256-257: nsyms and ndx are int *)
Definition sec_names (c : rsec) : list bytes :=
  let nsyms := s32 (rc_size c / rc_ent c) in let ndx := s32 (rc_info c) in sym_names (Z.to_nat (nsyms - ndx)) ndx (rc_sym c).
(* arlib.c:236-279 the loop over the sections *)
Fixpoint secs_names (symtype etype : Z) (l : list rsec) : list bytes :=
  match l with
  | [] => []
  | c :: r =>
      if negb (rc_hdr c) then secs_names symtype etype r
      else if negb (rc_type c =? symtype) then secs_names symtype etype r
      else if negb (rc_data c) then secs_names symtype etype r
      else if rc_ent c =? 0 then secs_names symtype etype r
      else sec_names c ++ (if etype =? ET_REL then secs_names symtype etype r else [])
  end.
(* arlib.c:216-234 *)
Definition member_names (is_elf : bool) (etype : Z) (l : list rsec) : list bytes :=
  if negb is_elf then []
  else if etype =? ET_REL then secs_names SHT_SYMTAB etype l
  else if (etype =? ET_EXEC) || (etype =? ET_DYN) then secs_names SHT_DYNSYM etype l
  else [].
