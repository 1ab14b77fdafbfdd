(* Symbols of a module by address: libdwfl/dwfl_module_addrsym.c, and the numbering of symbols,
   libdwfl/dwfl_module_getsym.c.  What __libdwfl_getsym gives for an index (name, symbol, value,
   section, file, and whether the value was resolved) is an input of the search: relocation
   and the back ends' function descriptors are not modelled.  So is the section in which
   __libdwfl_find_section_ndx (derelocate.c) finds an address. *)
From Verif Require Import Base.

(* A symbol as handed out by __libdwfl_getsym: the name, GElf_Sym (binding, type, st_shndx,
   st_value, st_size), *addr, *shndxp, the file, *resolved. *)
Record msym := Ms { y_name : bytes; y_bind : Z; y_type : Z; y_shn : Z; y_st : Z; y_size : Z; y_val : Z; y_ndx : Z; y_elf : Z; y_res : bool }.
(* The module: whether values are adjusted (dwfl_module_addrsym, not _addrinfo), e_type == ET_REL,
   the main file, the bias of each file (libdwflP.h:379-396: a constant is added or subtracted),
   the sections of each file from section 1 on (address and size), and
   __libdwfl_find_section_ndx. *)
Record minfo := Mi { i_adj : bool; i_rel : bool; i_main : Z; i_bias : Z -> Z; i_secs : Z -> list (Z * Z); i_find : Z -> Z }.
Definition SHN_UNDEF : Z := 0.
Definition SHN_LORESERVE : Z := 65280.
Definition SHN_ABS : Z := 65521.
(* dwfl_module_addrsym.c:35-61 struct search_state; the name is part of the symbol *)
Record sst := Sst { k_ndx : Z; k_elf : option Z; k_best : option (msym * Z); k_less : option (msym * Z); k_min : Z }.

(* :91-105: the first section that contains the address *)
Fixpoint find_scn (i : Z) (l : list (Z * Z)) (a : Z) : Z :=
  match l with [] => SHN_ABS | (s, n) :: r => if (s <=? a) && (a <? u64 (s + n)) then i else find_scn (i + 1) r a end.
(* :64-109 same_section *)
Definition same_section (i : minfo) (addr : Z) (s : sst) (value elf ndx : Z) : bool * sst :=
  if SHN_LORESERVE <=? ndx then (value =? addr, s)
  else if negb (i_adj i) then
    let s := if k_ndx s =? SHN_UNDEF then Sst (i_find i addr) (k_elf s) (k_best s) (k_less s) (k_min s) else s in
    (k_ndx s =? i_find i value, s)
  else
    let s := if (k_ndx s =? SHN_UNDEF) || negb (match k_elf s with Some e => e =? elf | None => false end)
             then Sst (find_scn 1 (i_secs i elf) (u64 (addr - i_bias i elf))) (Some elf) (k_best s) (k_less s) (k_min s) else s in
    ((ndx =? k_ndx s) && match k_elf s with Some e => e =? elf | None => false end, s).
(* :112-126 binding_value: STB_LOCAL 0, STB_GLOBAL 1, STB_WEAK 2 *)
Definition binding_value (m : msym) : Z := if y_bind m =? 1 then 3 else if y_bind m =? 2 then 2 else if y_bind m =? 0 then 1 else 0.
(* :129-193 try_sym_value *)
Definition try_sym (i : minfo) (addr : Z) (s : sst) (m : msym) (value : Z) (resolved : bool) : sst :=
  let e := u64 (value + y_size m) in
  let s := if k_min s <? e then Sst (k_ndx s) (k_elf s) (k_best s) (k_less s) e else s in
  if (y_size m =? 0) || (u64 (addr - value) <? y_size m) then
    let better := match k_best s with None => true | Some (b, v) => (v <? value) || (binding_value b <? binding_value m) end in
    if better then
      if negb (y_size m =? 0) then Sst (k_ndx s) (k_elf s) (Some (m, value)) (k_less s) (k_min s)
      else match k_best s with
           | Some _ => s
           | None => if k_min s <=? value then
                       let '(same, s) := same_section i addr s value (if resolved then i_main i else y_elf m) (y_ndx m) in
                       if same : bool then Sst (k_ndx s) (k_elf s) (k_best s) (Some (m, value)) (k_min s) else s
                     else s
           end
    else match k_best s with
         | None => s
         | Some (b, v) =>
           if negb (y_size m =? 0) && (v =? value) && (((y_size m <? y_size b) && (binding_value b <=? binding_value m)) || ((y_size m <=? y_size b) && (binding_value b <? binding_value m)))
           then Sst (k_ndx s) (k_elf s) (Some (m, value)) (k_less s) (k_min s) else s
         end
  else s.
(* :197-234 search_table: one symbol.  STT_SECTION 3, STT_FILE 4, STT_TLS 6. *)
Definition try_entry (i : minfo) (addr : Z) (s : sst) (e : option msym) : sst :=
  match e with
  | None => s
  | Some m =>
    if negb (match y_name m with [] => true | _ => false end) && negb (y_shn m =? SHN_UNDEF) && (y_val m <=? addr) && negb (y_type m =? 3) && negb (y_type m =? 4) && negb (y_type m =? 6) then
      let s := try_sym i addr s m (y_val m) (y_res m) in
      if y_res m && negb (i_rel i) then
        let a := u64 (y_st m + i_bias i (y_elf m)) in
        if negb (y_val m =? a) && (a <=? addr) then try_sym i addr s m a false else s
      else s
    else s
  end.
Definition search (i : minfo) (addr : Z) (s : sst) (l : list (option msym)) : sst := fold_left (try_entry i addr) l s.
(* :242-311 __libdwfl_addrsym: the symbols of the module in the order of their numbers (None for
   one without a name) and the number of the first global one.  The symbol and its value; the
   offset is addr - value. *)
Definition addrsym (i : minfo) (addr : Z) (t : list (option msym)) (first_global : Z) : option (msym * Z) :=
  if first_global <? 0 then None
  else
    let s := Sst SHN_UNDEF None None None 0 in
    let s := search i addr s (skipn (Z.to_nat (if first_global =? 0 then 1 else first_global)) t) in
    let s := match k_best s with
             | None => if (1 <? first_global) && match k_less s with None => true | Some (_, v) => negb (v =? addr) end
                       then search i addr s (firstn (Z.to_nat (first_global - 1)) (skipn 1 t)) else s
             | Some _ => s
             end in
    match k_best s with
    | Some b => Some b
    | None => match k_less s with Some (m, v) => if k_min s <=? v then Some (m, v) else None | None => None end
    end.

(* ------------------------------------------------------------------ *)
(* dwfl_module_getsym.c:48-94: the table and the index in it of a symbol number.  [aux] is
   mod->aux_symdata != NULL; then syments, first_global, aux_syments, aux_first_global. *)
Record tabs := Tb { b_aux : bool; b_syms : Z; b_glob : Z; b_asyms : Z; b_aglob : Z }.
Definition skip_zero (b : tabs) : Z := if (0 <? b_syms b) && (0 <? b_asyms b) then 1 else 0.
(* true for the main table *)
Definition sym_pos (b : tabs) (ndx : Z) : bool * Z :=
  if negb (b_aux b) || (ndx <? b_glob b) then (true, ndx)
  else if ndx <? b_glob b + b_aglob b - skip_zero b then (false, ndx - b_glob b + skip_zero b)
  else if ndx <? b_syms b + b_aglob b - skip_zero b then (true, ndx - b_aglob b + skip_zero b)
  else (false, ndx - b_syms b + skip_zero b).
(* dwfl_module_getdwarf.c:1469-1507 dwfl_module_getsymtab, dwfl_module_getsymtab_first_global *)
Definition symtab_count (b : tabs) : Z := b_syms b + b_asyms b - skip_zero b.
Definition symtab_first_global (b : tabs) : Z := b_glob b + b_aglob b - skip_zero b.
