(* From addresses of a module to sections and offsets: libdwfl/derelocate.c.

   What is modelled: the table of sections (cache_sections), the search in it, and the calls
   that use them.  Simplifications: section headers and names can be read and malloc succeeds;
   the relocation that dwfl_module_address_section has done is that of RelocModel and is a
   parameter; check_module (symbol table and DWARF are looked for first) succeeds. *)
From Verif Require Import Base RelocModel.

(* what is used of a section header; h_rel: sh_type is SHT_REL or SHT_RELA *)
Record hdr := Hdr { h_alloc : bool; h_addr : Z; h_size : Z; h_rel : bool; h_info : Z }.
Definition sec_of (h : hdr) : sec := Sec (h_addr h) (h_alloc h).
(* derelocate.c:49-56 struct secref; scn: the index *)
Record secref := Ref { q_scn : Z; q_relocs : option Z; q_start : Z; q_end : Z }.

(* derelocate.c:58-79 compare_secrefs, less than *)
Definition ref_lt (a b : secref) : bool :=
  if q_start a <? q_start b then true else if q_start b <? q_start a then false
  else if q_end a <? q_end b then true else if q_end b <? q_end a then false
  else q_scn a <? q_scn b.
(* qsort with it.  No two are equal, so that every sort gives this *)
Fixpoint insert (x : secref) (l : list secref) : list secref :=
  match l with [] => [x] | y :: l' => if ref_lt x y then x :: l else y :: insert x l' end.
Fixpoint sort (l : list secref) : list secref := match l with [] => [] | x :: l => insert x (sort l) end.

(* derelocate.c:147-152, 214-219: the relocation section of a section that is in the list *)
Fixpoint attach (t rel : Z) (l : list secref) : list secref :=
  match l with
  | [] => []
  | r :: l => if q_scn r =? t then Ref (q_scn r) (Some rel) (q_start r) (q_end r) :: l else r :: attach t rel l
  end.

Section table.
Variables (is_rel : bool)                                  (* e_type == ET_REL *)
  (bias : Z)                                               (* dwfl_adjusted_address *)
  (cb : Z -> option Z).                                    (* section_address, not NULL *)
(* derelocate.c:98-158: the sections from number n on; the headers as they are now, the list (last first), check_reloc_sections *)
Fixpoint collect (n : Z) (hs : list hdr) (secs : list sec) (refs : list secref) (check : bool) : list sec * list secref * bool :=
  match hs with
  | [] => (secs, refs, check)
  | h :: hs =>
    let addr0 := match znth secs n with Some s => s_addr s | None => 0 end in
    let '(secs, failed) :=
      if h_alloc h && (addr0 =? 0) && is_rel then
        let '(secs, _, r) := relocate_value bias cb secs n 0 in (secs, match r with inl _ => true | inr _ => false end)
      else (secs, false) in
    if failed : bool then collect (n + 1) hs secs refs check
    else
      let addr := match znth secs n with Some s => s_addr s | None => 0 end in
      let refs := if h_alloc h then Ref n None (u64 (addr + bias)) (u64 (u64 (addr + bias) + h_size h)) :: refs else refs in
      if is_rel && negb (h_size h =? 0) && h_rel h then
        if h_info h <? n then collect (n + 1) hs secs (attach (h_info h) n refs) check
        else collect (n + 1) hs secs refs true
      else collect (n + 1) hs secs refs check
  end.
(* derelocate.c:196-222: the second pass *)
Fixpoint second (n nscn : Z) (hs : list hdr) (refs : list secref) : list secref :=
  match hs with
  | [] => refs
  | h :: hs => second (n + 1) nscn hs (if negb (h_size h =? 0) && h_rel h && (0 <=? h_info h) && (h_info h <? nscn) then attach (h_info h) n refs else refs)
  end.
(* derelocate.c:81-233 cache_sections: the table.  hs: all sections; the first is not looked at
   (elf_nextscn) *)
Definition table (hs : list hdr) : list secref :=
  let '(_, refs, check) := collect 1 (tl hs) (map sec_of hs) [] false in
  let refs := sort (rev refs) in
  if check then second 1 (zlen hs) (tl hs) refs else refs.
End table.

(* derelocate.c:331-368 find_section: the index and the offset *)
Fixpoint find_loop (fuel : nat) (refs : list secref) (addr l u : Z) : outcome (option (Z * Z)) :=
  match fuel with
  | O => Fuel
  | S fuel =>
    if l <? u then
      let idx := (l + u) / 2 in
      match znth refs idx with
      | None => UB
      | Some r =>
        if addr <? q_start r then find_loop fuel refs addr l idx
        else if q_end r <? addr then find_loop fuel refs addr (idx + 1) u
        else
          match (if addr =? q_end r then znth refs (idx + 1) else None) with
          | Some r' => if addr =? q_start r' then Ok (Some (idx + 1, u64 (addr - q_start r'))) else Ok (Some (idx, u64 (addr - q_start r)))
          | None => Ok (Some (idx, u64 (addr - q_start r)))
          end
      end
    else Ok None
  end.
Definition find_section (refs : list secref) (addr : Z) : outcome (option (Z * Z)) := find_loop (S (length refs)) refs addr 0 (zlen refs).

(* the kinds of modules *)
Inductive kind := K_REL (refs : list secref) | K_DYN (low_addr : Z) | K_EXEC.
(* derelocate.c:236-257 dwfl_module_relocations *)
Definition relocations (k : kind) : Z := match k with K_REL refs => zlen refs | K_DYN _ => 1 | K_EXEC => 0 end.
(* derelocate.c:259-297 dwfl_module_relocation_info: the index of the section; NULL is None.
   The name is that of this section (for ET_DYN: "", with SHN_ABS) *)
Definition relocation_info (k : kind) (idx : Z) : option Z :=
  match k with
  | K_REL refs => option_map q_scn (znth refs idx)
  | K_DYN _ => if idx =? 0 then Some 65521 else None
  | K_EXEC => None
  end.
(* derelocate.c:381-403 dwfl_module_relocate_address: the result and *addr; -1 with *addr as it was if there is no match *)
Definition relocate_address (k : kind) (addr : Z) : outcome (Z * Z) :=
  match k with
  | K_REL refs => o <- find_section refs addr ;; match o with Some (i, off) => Ok (i, off) | None => Ok (-1, addr) end
  | K_DYN low => Ok (0, u64 (addr - low))
  | K_EXEC => Ok (0, addr)
  end.
