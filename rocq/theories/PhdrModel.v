(* Model of the creation and removal of the program header table: libelf/elf32_newehdr.c, elf32_newphdr.c,
   elf_getphdrnum.c and the part of elf_newscn.c that makes section zero.  Locks are left out. *)
From Verif Require Import Base ElfErr.

(* one program header: its eight members *)
Definition phdr : Type := list Z.
Definition zero_phdr : phdr := repeat 0 8.

(* where the table lies: malloc'ed memory, or the mapped file (elf32_getphdr.c:112-117), which can be
   written unless the file was opened with ELF_C_READ_MMAP (elf_begin.c:661-664) *)
Inductive mem := Heap | Map (writable : bool).

(* libelfP.h:236-, the parts of struct Elf that matter here.  [t_ehdr] holds e_phnum, e_phentsize and e_phoff;
   [t_sh0] the sh_info of section zero when its header is in memory; [t_cnt] and [t_max] are scns.cnt and
   scns.max of the first block of sections *)
Record ehdr := Ehdr { h_phnum : Z; h_phentsize : Z; h_phoff : Z }.
Record elf := Elf { t_kind : bool; t_class : Z; t_ehdr : option ehdr; t_tab : option (mem * list phdr); t_malloced : bool; t_pdirty : bool;
  t_cnt : Z; t_max : Z; t_sh0 : option Z; t_sh0_dirty : bool; t_dirty : bool; t_size : Z }.

Definition PN_XNUM : Z := 65535.
Definition cls (c64 : bool) : Z := if c64 then 2 else 1.
Definition phsize (c64 : bool) : Z := if c64 then 56 else 32.

Definition set_class (e : elf) (c : Z) : elf := Elf (t_kind e) c (t_ehdr e) (t_tab e) (t_malloced e) (t_pdirty e) (t_cnt e) (t_max e) (t_sh0 e) (t_sh0_dirty e) (t_dirty e) (t_size e).
Definition set_ehdr (e : elf) (h : ehdr) : elf := Elf (t_kind e) (t_class e) (Some h) (t_tab e) (t_malloced e) (t_pdirty e) (t_cnt e) (t_max e) (t_sh0 e) (t_sh0_dirty e) (t_dirty e) (t_size e).
Definition set_tab (e : elf) (t : option (mem * list phdr)) : elf := Elf (t_kind e) (t_class e) (t_ehdr e) t (t_malloced e) (t_pdirty e) (t_cnt e) (t_max e) (t_sh0 e) (t_sh0_dirty e) (t_dirty e) (t_size e).
Definition set_pflags (e : elf) (m d : bool) : elf := Elf (t_kind e) (t_class e) (t_ehdr e) (t_tab e) m d (t_cnt e) (t_max e) (t_sh0 e) (t_sh0_dirty e) (t_dirty e) (t_size e).
Definition set_sh0 (e : elf) (c : Z) (i : option Z) (d : bool) : elf := Elf (t_kind e) (t_class e) (t_ehdr e) (t_tab e) (t_malloced e) (t_pdirty e) c (t_max e) i d (t_dirty e) (t_size e).
Definition set_dirty (e : elf) : elf := Elf (t_kind e) (t_class e) (t_ehdr e) (t_tab e) (t_malloced e) (t_pdirty e) (t_cnt e) (t_max e) (t_sh0 e) (t_sh0_dirty e) true (t_size e).

(* elf32_newehdr.c:44-88 *)
Definition newehdr (c64 : bool) (e : elf) : outcome unit * elf :=
  if negb (t_kind e) then (Err ELF_E_INVALID_HANDLE, e)
  else if negb (t_class e =? 0) && negb (t_class e =? cls c64) then (Err ELF_E_INVALID_CLASS, e)
  else
    let e := if t_class e =? 0 then set_class e (cls c64) else e in
    (Ok tt, match t_ehdr e with None => set_ehdr e (Ehdr 0 0 0) | Some _ => e end).

(* elf_newscn.c:61-75, 120-139: the first section made is section zero, with a cleared header.  Later blocks
   of sections are left out: only whether section zero exists matters *)
Definition newscn (e : elf) : outcome unit * elf :=
  if t_cnt e <? t_max e then
    (Ok tt, if t_cnt e =? 0 then set_sh0 e 1 (Some 0) true else set_sh0 e (t_cnt e + 1) (t_sh0 e) (t_sh0_dirty e))
  else (Ok tt, e).

(* elf32_newphdr.c:75-104: remove the table *)
Definition remove_table (c64 : bool) (e : elf) (h : ehdr) : outcome (option (list phdr)) * elf :=
  match t_tab e with
  | None => (Ok None, e)
  | Some _ =>
      let e1 := set_ehdr (set_tab e None) (Ehdr 0 (phsize c64) (h_phoff h)) in
      let fin e := set_dirty (set_pflags e (t_malloced e) true) in
      if 0 <? t_cnt e then
        match t_sh0 e with
        | None => (UB, e)  (* sh_info through a null pointer *)
        | Some _ => (Ok None, fin (set_sh0 e1 (t_cnt e) (Some 0) (t_sh0_dirty e)))
        end
      else (Ok None, fin e1)
  end.

(* elf32_newphdr.c:105-168: a table of another size.  realloc of memory that malloc did not give is UB, so is
   a look at section zero when there is no room for it *)
Definition new_table (c64 : bool) (alloc : Z -> bool) (e : elf) (h : ehdr) (count : Z) : outcome (option (list phdr)) * elf :=
  if (two64 - 1) / phsize c64 <? count then (Err ELF_E_INVALID_INDEX, e)
  else if (PN_XNUM <=? count) && (t_max e =? 0) then (UB, e)
  else if (PN_XNUM <=? count) && (match t_sh0 e with None => true | Some _ => false end) then (Err ELF_E_INVALID_SECTION_HEADER, e)
  else
    match t_tab e with
    | Some (Map _, _) => (UB, e)
    | _ =>
        if negb (alloc (count * phsize c64)) then (Err ELF_E_NOMEM, e)
        else
          let l := repeat zero_phdr (Z.to_nat count) in
          let e := set_tab e (Some (Heap, l)) in
          let e := if PN_XNUM <=? count
                   then set_ehdr (set_sh0 e (if t_cnt e =? 0 then 1 else t_cnt e) (Some (u32 count)) true) (Ehdr PN_XNUM (phsize c64) (h_phoff h))
                   else set_ehdr e (Ehdr (u16 count) (phsize c64) (h_phoff h)) in
          (Ok (Some l), set_dirty (set_pflags e true true))
    end.

(* elf32_newphdr.c:169-181: the same size, the entries are cleared.  assert stops the program (UB); so does
   writing to a mapping that cannot be written.  The entries past [count], if any, stay. *)
Definition same_table (c64 : bool) (e : elf) (h : ehdr) (count : Z) : outcome (option (list phdr)) * elf :=
  if negb (h_phentsize h =? phsize c64) then (UB, e)
  else
    match t_tab e with
    | None | Some (Map false, _) => (UB, e)
    | Some (m, l) =>
        if zlen l <? count then (UB, e)
        else
          let l' := repeat zero_phdr (Z.to_nat count) ++ skipn (Z.to_nat count) l in
          (Ok (Some l'), set_pflags (set_tab e (Some (m, l'))) (t_malloced e) true)
    end.

(* elf32_newphdr.c:44-187 *)
Definition newphdr (c64 : bool) (alloc : Z -> bool) (e : elf) (count : Z) : outcome (option (list phdr)) * elf :=
  if negb (t_kind e) then (Err ELF_E_INVALID_HANDLE, e)
  else if negb (u32 count =? count) then (Err ELF_E_INVALID_OPERAND, e)
  else if negb (t_class e =? 0) && negb (t_class e =? cls c64) then (Err ELF_E_INVALID_CLASS, e)
  else
    let e := if t_class e =? 0 then set_class e (cls c64) else e in
    match t_ehdr e with
    | None => (Err ELF_E_WRONG_ORDER_EHDR, e)
    | Some h =>
        if count =? 0 then remove_table c64 e h
        else if negb (h_phnum h =? count) || (count =? PN_XNUM) || (match t_tab e with None => true | Some _ => false end)
        then new_table c64 alloc e h count
        else same_table c64 e h count
    end.

(* elf_getphdrnum.c:40-77 *)
Definition phnum_rdlock (e : elf) (h : ehdr) : Z :=
  if h_phnum h =? PN_XNUM then
    if 0 <? t_cnt e then match t_sh0 e with Some i => i | None => h_phnum h end else h_phnum h
  else h_phnum h.

(* elf_getphdrnum.c:79-121, 124-142: without a header the error is set and e_phoff read all the same *)
Definition getphdrnum (e : elf) : outcome Z :=
  if negb (t_kind e) then Err ELF_E_INVALID_HANDLE
  else
    match t_ehdr e with
    | None => match t_tab e with None => UB | Some _ => Err ELF_E_WRONG_ORDER_EHDR end
    | Some h =>
        let n := phnum_rdlock e h in
        let sz := if t_class e =? 1 then 32 else 56 in
        match t_tab e with
        | Some _ => Ok n
        | None =>
            if h_phoff h =? 0 then Ok 0
            else if t_size e <=? h_phoff h then Err ELF_E_INVALID_DATA
            else if (two64 - 1) / sz <? n then Err ELF_E_INVALID_DATA
            else if t_size e - h_phoff h <? u64 (n * sz) then Ok ((t_size e - h_phoff h) / sz)
            else Ok n
        end
    end.

(* elf_begin.c:1052-1077 write_file *)
Definition fresh : elf := Elf true 0 None None false false 0 10 None false true 0.
