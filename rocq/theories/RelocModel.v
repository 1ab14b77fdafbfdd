(* Relocation of the sections of relocatable files: libdwfl/relocate.c.

   What is modelled: one relocation, the loop over a relocation section, the removal of what
   has been applied, the test of the places in the file, load addresses of sections with the
   headers that keep them, and the resolution of symbols.  Simplifications: sections are not
   compressed, and headers, names and entries can be read (where libelf fails the call fails).
   The type of a relocation (ebl_reloc_simple_type), the callback section_address and
   dwfl_adjusted_st_value are parameters.  Signed overflow and failing assertions are UB. *)
From Verif Require Import Base.

(* libdwflP.h:58-100, the errors that are told apart here *)
Inductive derr := E_LIBELF | E_BADRELTYPE | E_BADRELOFF | E_RELUNDEF | E_UNKNOWN_MACHINE | E_BADELF | E_BADSTROFF | E_CB | E_other (e : Z).
(* libelf.h:58-72, the types of relocate.c:381-383 *)
Inductive rtype := TByte | THalf | TWord | TSword | TXword | TSxword.
Definition rsize (t : rtype) : Z := match t with TByte => 1 | THalf => 2 | TWord | TSword => 4 | TXword | TSxword => 8 end.
(* GElf_Rel, GElf_Rela; r_info is type and symbol *)
Record rel := Rel { r_off : Z; r_type : Z; r_sym : Z; r_add : Z }.
Definition zero_rel : rel := Rel 0 0 0 0.

Definition get (big : bool) (b : bytes) : Z := if big then be_value b else le_value b.
Definition enc (big : bool) (n : Z) (v : Z) : bytes := if big then be_bytes (Z.to_nat n) v else le_bytes (Z.to_nat n) v.
Definition put (t : bytes) (off : Z) (b : bytes) : bytes := firstn (Z.to_nat off) t ++ b ++ skipn (Z.to_nat (off + zlen b)) t.

Section one.
Variables (big : bool)                                     (* e_ident[EI_DATA] *)
  (simple : Z -> option (rtype * Z))                       (* ebl_reloc_simple_type; ELF_T_NUM is None *)
  (resolve : Z -> derr + Z)                                (* relocate.c:360-377: the value of the symbol *)
  (rela : bool).                                           (* whether there are addends: SHT_RELA *)
(* relocate.c:447-454: what is added to, for the types that are signed *)
Definition add_in_place (ty : rtype) (old v : Z) : outcome Z :=
  match ty with
  | TSword => let s := s32 old + s32 v in if (- two31 <=? s) && (s <? two31) then Ok s else UB
  | TSxword => let s := s64 old + s64 v in if (- two63 <=? s) && (s <? two63) then Ok s else UB
  | _ => Ok (old + v)
  end.
(* relocate.c:318-470 relocate: the error if there is one, and the section *)
Definition relocate (t : bytes) (r : rel) : outcome (option derr * bytes) :=
  if r_type r =? 0 then Ok (None, t)
  else
    match simple (r_type r) with
    | None => Ok (Some E_BADRELTYPE, t)
    | Some (ty, addsub) =>
      match (if r_sym r =? 0 then inr 0 else resolve (r_sym r)) with
      | inl e => Ok (Some e, t)
      | inr value =>
        if negb (addsub =? 0) && negb rela then Ok (Some E_BADRELTYPE, t)
        else if (zlen t <? r_off r) || (zlen t - r_off r <? rsize ty) then Ok (Some E_BADRELOFF, t)
        else
          let old := get big (zsub t (r_off r) (rsize ty)) in
          x <- (if rela then
                  let value := u64 (value + r_add r) in
                  Ok (if negb (addsub =? 0) then old + value * addsub else value)
                else add_in_place ty old value) ;;
          Ok (None, put t (r_off r) (enc big (rsize ty) x))
      end
    end.

Variables (em_none partial : bool).                        (* ebl_get_elfmachine (mod->ebl) == EM_NONE *)
(* relocate.c:594-630, 632-670: the loops; done: the entries before, as they are now, last
   first; first: first_badreltype *)
Fixpoint rel_loop (first : bool) (done rest : list rel) (complete : Z) (t : bytes) : outcome (option derr * list rel * Z * bytes) :=
  match rest with
  | [] => Ok (None, rev done, complete, t)
  | r :: rest =>
    ' (res, t) <- relocate t r ;;
    let res := if first && em_none then Some E_UNKNOWN_MACHINE else res in
    if partial then
      match res with
      | None => rel_loop false (zero_rel :: done) rest (complete + 1) t
      | Some E_BADRELTYPE | Some E_RELUNDEF => rel_loop false (r :: done) rest complete t
      | Some e => Ok (Some e, rev done ++ r :: rest, complete, t)
      end
    else
      match res with
      | None => rel_loop false (r :: done) rest complete t
      | Some e => Ok (Some e, rev done ++ r :: rest, complete, t)
      end
  end.
(* relocate.c:687-688, 703: an entry that is kept *)
Definition not_elided (r : rel) : bool := negb (r_type r =? 0) || negb (r_sym r =? 0) || negb (r_off r =? 0) || (rela && negb (r_add r =? 0)).
(* relocate.c:583-723: the result, the entries that are left, the section *)
Definition relocate_entries (rs : list rel) (t : bytes) : outcome (option derr * list rel * bytes) :=
  ' (x, t) <- rel_loop true [] rs 0 t ;;
  let '(res, rs, complete) := x in
  match res with
  | Some e => Ok (Some e, rs, t)
  | None =>
    if negb partial || (complete =? zlen rs) then Ok (None, [], t)
    else if negb (complete =? 0) then Ok (None, filter not_elided rs, t)
    else Ok (None, rs, t)
  end.
End one.

(* relocate.c:541-578: whether a section's data may be written or read; off, size of the
   sections, then the table of section headers, then that of program headers *)
Definition overlaps (start end_ off size : Z) : bool := (start <? u64 (off + size)) && (off <? end_).
Definition placement (ehsize shoff shnum shentsize phoff phnum phentsize : Z) (s t : Z * Z) : option derr :=
  if (fst s <? ehsize) || (fst t <? ehsize) then Some E_BADELF
  else
    let shend := u64 (shoff + shnum * shentsize) in
    if overlaps shoff shend (fst s) (snd s) || overlaps shoff shend (fst t) (snd t) then Some E_BADELF
    else if negb (phoff =? 0) && negb (phnum =? 0) then
      let phend := u64 (phoff + phnum * phentsize) in
      if overlaps phoff phend (fst s) (snd s) || overlaps phoff phend (fst t) (snd t) then Some E_BADELF else None
    else None.

(* the sections: sh_addr, and whether SHF_ALLOC is set *)
Record sec := Sec { s_addr : Z; s_alloc : bool }.
Section value.
Variables (bias : Z)                                       (* main_bias of the module *)
  (cb : Z -> option Z).                                    (* section_address; None: it fails *)
(* relocate.c:40-92 __libdwfl_relocate_value: the sections, the number of calls of the
   callback, and the value.  Simplified: sections whose name is not a string are not modelled
   (DWFL_E_LIBELF before the callback) and gelf_update_shdr succeeds. *)
Definition relocate_value (secs : list sec) (shndx v : Z) : list sec * Z * (derr + Z) :=
  if shndx =? 0 then (secs, 0, inr v)
  else
    match znth secs shndx with
    | None => (secs, 0, inl E_LIBELF)
    | Some s =>
      if (s_addr s =? 0) && s_alloc s then
        match cb shndx with
        | None => (secs, 1, inl E_CB)
        | Some a =>
          let a := if a =? two64 - 1 then 0 else a in
          (if negb (a =? 0) then zset secs shndx (Sec a (s_alloc s)) else secs, 1, inr (u64 (v + u64 (a + bias))))
        end
      else (secs, 0, inr (if s_alloc s then u64 (v + u64 (s_addr s + bias)) else v))
    end.
End value.

(* a symbol: st_value, the index of its section (gelf_getsymshndx), whether that is the
   extended one, whether it is local, st_name and the string there *)
Record sym := Sym { y_value : Z; y_shndx : Z; y_x : bool; y_local : bool; y_name : Z; y_str : option bytes }.
Definition SHN_UNDEF : Z := 0.
Definition SHN_ABS : Z := 65521.
Definition SHN_COMMON : Z := 65522.
(* a module: its symbols, whether it is ET_REL, dwfl_adjusted_st_value, relocate_value *)
Record modl := Modl { m_syms : list sym; m_rel : bool; m_adj : Z -> Z; m_reloc : Z -> Z -> derr + Z }.

(* relocate.c:229-310: the symbols of one module, from index 1; what is in *sym at last, and
   the result if there is one *)
Fixpoint match_module (m : modl) (name : bytes) (syms : list sym) (last : Z) : Z * option (derr + Z) :=
  match syms with
  | [] => (last, None)
  | y :: syms =>
    if (y_shndx y =? SHN_UNDEF) || (y_shndx y =? SHN_COMMON) || y_local y || (y_name y =? 0) then match_module m name syms (y_value y)
    else
      match y_str y with
      | None => (y_value y, Some (inl E_BADSTROFF))
      | Some n =>
        if list_eq_dec Z.eq_dec name n then
          if y_shndx y =? SHN_ABS then (y_value y, Some (inr (y_value y)))
          else if negb (m_rel m) then (y_value y, Some (inr (m_adj m (y_value y))))
          else (y_value y, Some (m_reloc m (y_shndx y) (y_value y)))
        else match_module m name syms (y_value y)
      end
  end.
Fixpoint match_modules (ms : list modl) (name : bytes) (last : Z) : Z * option (derr + Z) :=
  match ms with
  | [] => (last, None)
  | m :: ms =>
    let '(last, r) := match_module m name (tl (m_syms m)) last in
    match r with Some r => (last, Some r) | None => match_modules ms name last end
  end.
(* relocate.c:202-316 resolve_symbol; others: the modules but the one that refers; st_value of
   *sym and the result *)
Definition resolve_symbol (others : list modl) (y : sym) (value : Z) : Z * (derr + Z) :=
  if y_name y =? 0 then (value, inl E_RELUNDEF)
  else
    match y_str y with
    | None => (value, inl E_BADSTROFF)
    | Some name =>
      let '(last, r) := match_modules others name value in
      match r with Some r => (last, r) | None => (last, inl E_RELUNDEF) end
    end.
(* relocate.c:360-377 with relocate_getsym, 107-199; reloc: relocate_value for the file *)
Definition symbol_value (syms : list sym) (reloc : Z -> Z -> derr + Z) (others : list modl) (ndx : Z) : derr + Z :=
  match znth syms ndx with
  | None => inl E_LIBELF
  | Some y =>
    match (if negb (y_x y) && ((y_shndx y =? SHN_ABS) || (y_shndx y =? SHN_UNDEF)) then inr (y_value y)
           else if negb (y_x y) && (y_shndx y =? SHN_COMMON) then inr 0
           else reloc (y_shndx y) (y_value y)) with
    | inl e => inl e
    | inr value =>
      if (y_shndx y =? SHN_UNDEF) || (y_shndx y =? SHN_COMMON) then
        match resolve_symbol others y value with
        | (_, inr v) => inr v
        | (last, inl E_RELUNDEF) => if y_shndx y =? SHN_COMMON then inr last else inl E_RELUNDEF
        | (_, inl e) => inl e
        end
      else inr value
    end
  end.
