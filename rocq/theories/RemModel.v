(* Model of the image of a file rebuilt from the memory of a process: libdwfl/elf-from-memory.c.
   The page size is a power of two in the code, where x & -pagesize is [down] and x & (pagesize - 1) is x mod pagesize.
   The translation of headers is a parameter (XlateModel). *)
From Verif Require Import Base.

(* the members of the file header that are used *)
Record rhdr := Rhdr { h_class : Z; h_phoff : Z; h_phnum : Z; h_phentsize : Z; h_shoff : Z; h_shnum : Z; h_shentsize : Z; h_shstrndx : Z }.
(* a program header of type PT_LOAD *)
Record rseg := Rseg { s_vaddr : Z; s_off : Z; s_filesz : Z; s_memsz : Z }.

Inductive rerr := TRUNCATED | BADELF | NOMEM.
Inductive rout (A : Type) := Rok (x : A) | Rerr (e : rerr) | Rub.
Arguments Rok {A}. Arguments Rerr {A}. Arguments Rub {A}.
Definition rbind {A B : Type} (o : rout A) (f : A -> rout B) : rout B := match o with Rok x => f x | Rerr e => Rerr e | Rub => Rub end.

(* sizeof (Elf32_Ehdr), sizeof (Elf64_Ehdr) and the same for Phdr *)
Definition ehsize (h : rhdr) : Z := if h_class h =? 1 then 52 else 64.
Definition phsize (h : rhdr) : Z := if h_class h =? 1 then 32 else 56.

Section remote.
Variables
  (page : Z)
  (* read_memory: address, least and largest size; None for an error or for nothing *)
  (read : Z -> Z -> Z -> option bytes)
  (alloc : Z -> bool)
  (* the header, None unless magic number, class and encoding are known; the PT_LOAD entries; and the header as bytes *)
  (dec_ehdr : bytes -> option rhdr) (dec_phdrs : rhdr -> bytes -> list rseg) (enc_ehdr : bytes -> rhdr -> bytes).

(* x & -pagesize, and (x + pagesize - 1) & -pagesize *)
Definition down (x : Z) : Z := x - x mod page.
Definition up (x : Z) : Z := down (u64 (x + page - 1)).

(* elf-from-memory.c:79-165: the header.  A 64-bit header of which less than 64 bytes were read is garbage *)
Definition get_ehdr (vma : Z) : rout (bytes * rhdr) :=
  match read vma 52 256 with
  | None => Rerr TRUNCATED
  | Some b =>
      match dec_ehdr b with
      | None => Rerr BADELF
      | Some h =>
          if zlen b <? ehsize h then Rub
          else if negb (h_phentsize h =? phsize h) || (h_phnum h =? 0) then Rerr BADELF
          else Rok (b, h)
      end
  end.
(* elf-from-memory.c:147, 160: int arithmetic in the product, 32-bit addition for 32-bit files *)
Definition shdrs_end (h : rhdr) : Z := (if h_class h =? 1 then u32 else u64) (h_shoff h + h_shnum h * h_shentsize h).

(* elf-from-memory.c:168-198: the program headers; past the 256 bytes of the buffer is UB *)
Definition get_phdrs (vma : Z) (b : bytes) (h : rhdr) : rout (list rseg) :=
  let n := h_phnum h * h_phentsize h in
  if u64 (h_phoff h + n) <=? zlen b then
    if 256 <? h_phoff h + n then Rub else Rok (dec_phdrs h (zsub b (h_phoff h) n))
  else match read (u64 (vma + h_phoff h)) n n with None => Rerr TRUNCATED | Some d => Rok (dec_phdrs h d) end.

(* elf-from-memory.c:218-223: what the scan finds *)
Record rscan := Rscan { c_size : Z; c_end : Z; c_end_mem : Z; c_base : Z; c_found : bool }.
(* elf-from-memory.c:228-254 handle_segment *)
Definition scan_seg (vma : Z) (g : rseg) (c : rscan) : option rscan :=
  if negb ((u64 (s_vaddr g - s_off g)) mod page =? 0) then None
  else
    let e := up (s_off g + s_filesz g) in
    let hit := negb (c_found c) && (down (s_off g) =? 0) in
    Some (Rscan (if c_size c <? e then e else c_size c) (u64 (s_off g + s_filesz g)) (u64 (s_off g + s_memsz g))
                (if hit then u64 (vma - down (s_vaddr g)) else c_base c) (c_found c || hit)).
(* elf-from-memory.c:256-281 *)
Fixpoint scan_all (vma : Z) (l : list rseg) (c : rscan) : option rscan :=
  match l with [] => Some c | g :: r => match scan_seg vma g c with None => None | Some c => scan_all vma r c end end.

(* elf-from-memory.c:283-296: the size of the image *)
Definition image_size (c : rscan) (she : Z) : Z :=
  if (c_end c <? c_size c) && (she <=? c_size c) && (c_end c =? c_end_mem c) then (if c_end c <? she then she else c_end c) else c_end c.

(* a store of the bytes d into the buffer at start *)
Definition blit (buf : bytes) (start : Z) (d : bytes) : bytes := firstn (Z.to_nat start) buf ++ d ++ skipn (Z.to_nat (start + zlen d)) buf.
(* elf-from-memory.c:310-323 handle_segment: a start past the end makes the size wrap around, and the buffer is overrun *)
Definition read_seg (size base : Z) (g : rseg) (buf : bytes) : rout bytes :=
  let start := down (s_off g) in
  let e := let e := up (s_off g + s_filesz g) in if size <? e then size else e in
  if e <? start then Rub
  else if e =? start then Rerr TRUNCATED  (* nothing is read *)
  else match read (down (u64 (base + s_vaddr g))) (e - start) (e - start) with
       | None => Rerr TRUNCATED
       | Some d => if negb (zlen d =? e - start) then Rub else Rok (blit buf start d)
       end.
(* elf-from-memory.c:325-330 *)
Fixpoint read_all (size base : Z) (l : list rseg) (buf : bytes) : rout bytes :=
  match l with [] => Rok buf | g :: r => rbind (read_seg size base g buf) (read_all size base r) end.

(* elf-from-memory.c:332-339 *)
Definition no_sections (h : rhdr) : rhdr := Rhdr (h_class h) (h_phoff h) (h_phnum h) (h_phentsize h) 0 0 (h_shentsize h) 0.

(* elf-from-memory.c:57-400 elf_from_remote_memory: the bytes of the image and the load base *)
Definition from_memory (vma : Z) : rout (bytes * Z) :=
  rbind (get_ehdr vma) (fun p => let (b, h) := p in
  rbind (get_phdrs vma b h) (fun segs =>
  match scan_all vma segs (Rscan 0 0 0 vma false) with
  | None => Rerr BADELF
  | Some c =>
      let size := image_size c (shdrs_end h) in
      if negb (alloc size) then Rerr NOMEM
      else
        rbind (read_all size (c_base c) segs (repeat 0 (Z.to_nat size))) (fun buf =>
        let h' := if size <? shdrs_end h then no_sections h else h in
        (* elf-from-memory.c:341-349, 368-376: the header is put at the start, whatever the size *)
        if size <? ehsize h then Rub else Rok (blit buf 0 (enc_ehdr b h'), c_base c))
  end)).
End remote.
