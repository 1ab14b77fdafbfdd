(* Model of reading the memory of a process from a core file: libdwfl/core-file.c.
   The align of the code is a power of two, where x & -align is x - x mod align.  The core file is the whole of its descriptor. *)
From Verif Require Import Base.

(* the members of a program header that are used; c_load for PT_LOAD *)
Record cph := Cph { c_load : bool; c_off : Z; c_vaddr : Z; c_filesz : Z; c_memsz : Z }.

Section core.
Variables (align : Z) (phdrs : list cph) (file : bytes) (mapd : bool).

Definition round_up (x : Z) : Z := let y := u64 (x + align - 1) in y - y mod align.

(* the variables of the callback: the headers from ndx on, phdr, end, end_vaddr *)
Record cst := Cst { k_rest : list cph; k_cur : cph; k_end : Z; k_endv : Z }.

(* core-file.c:243-249 update_end, with the new phdr *)
Definition update_end (rest : list cph) (p : cph) : cst := Cst rest p (round_up (c_off p + c_filesz p)) (round_up (c_vaddr p + c_memsz p)).

(* core-file.c:251-277 do_more.  The list of headers left bounds the loop *)
Fixpoint do_more (rest : list cph) (cur : cph) (e ev start size : Z) : bool * cst :=
  if (e <=? start) || (e - start <? size) then
    if c_filesz cur <? c_memsz cur then (false, Cst rest cur e ev)
    else
      match rest with
      | [] => (false, Cst rest cur e ev)
      | p :: r =>
          if c_load p then
            if (e <? c_off p) || (ev <? c_vaddr p) then (false, Cst r p e ev)
            else do_more r p (round_up (c_off p + c_filesz p)) (round_up (c_vaddr p + c_memsz p)) start size
          else do_more r p e ev start size
      end
  else (true, Cst rest cur e ev).
Definition more (start size : Z) (s : cst) : bool * cst := do_more (k_rest s) (k_cur s) (k_end s) (k_endv s) start size.

(* core-file.c:303-307: the first segment that ends after vaddr *)
Fixpoint first_seg (l : list cph) (vaddr : Z) : option (cph * list cph) :=
  match l with
  | [] => None
  | p :: r => if negb (c_load p) || (round_up (c_vaddr p + c_memsz p) <=? vaddr) then first_seg r vaddr else Some (p, r)
  end.

(* memchr: the string with its terminator; not an empty one *)
Fixpoint upto_nul (b : bytes) : option bytes :=
  match b with [] => None | c :: r => if c =? 0 then Some [c] else match upto_nul r with Some s => Some (c :: s) | None => None end end.
Definition string_of (b : bytes) : option bytes := match upto_nul b with Some [_] => None | x => x end.

(* core-file.c:281-403 dwfl_elf_phdr_memory_callback for ndx other than -1: [fresh] for a null *buffer, [avail] for *buffer_available.
   The result is the bytes in *buffer, or None for false.  malloc is taken to work and pread to give all there is *)
Definition memory (ndx : nat) (vaddr minread : Z) (fresh : bool) (avail : Z) : option bytes :=
  match first_seg (skipn ndx phdrs) vaddr with
  | None => None
  | Some (p, rest) =>
      let start := u64 (u64 (vaddr - c_vaddr p) + c_off p) in
      match more start minread (update_end rest p) with
      | (false, _) => None
      | (true, s) =>
          let (_, s) := more start avail s in
          let s := if mapd then snd (more start (u64 (zlen file - start)) s) else s in
          let e := if zlen file <? k_end s then zlen file else k_end s in
          if e <=? start then None
          else if mapd then
            let contents := zsub file start (e - start) in
            match (if minread =? 0 then string_of contents else Some contents) with
            | None => None
            | Some c => if fresh then Some c else Some (zsub c 0 (Z.min (zlen c) avail))
            end
          else
            let n := if fresh then Z.min (if minread =? 0 then 512 else minread) (Z.max 4096 (Z.min (e - start) avail)) else avail in
            let got := zsub file start n in
            if zlen got <? minread then None
            else if minread =? 0 then string_of got else Some got
      end
  end.
End core.
