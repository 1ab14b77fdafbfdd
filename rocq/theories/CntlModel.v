(* Model of elf_cntl (libelf/elf_cntl.c) and __libelf_readall (libelf/elf_readall.c): an ELF handle and the handles of archive members opened through it.
   The size of the file is known (maximum_size is set by elf_begin), malloc does not fail, and locks are left out (with locks elf_cntl would wait for itself: it holds elf->lock when
   __libelf_readall takes it). *)
From Verif Require Import Base ElfErr.

(* libelfP.h:270-301: fildes, map_address (None: NULL; the bytes that are there), start_offset, maximum_size, state.ar.offset, kind == ELF_K_AR and the children *)
Inductive eh := Eh (fd : Z) (mp : option bytes) (start max aroff : Z) (ar : bool) (ch : list eh).
Definition h_fd (h : eh) := let '(Eh fd _ _ _ _ _ _) := h in fd.
Definition h_mp (h : eh) := let '(Eh _ mp _ _ _ _ _) := h in mp.
Definition h_start (h : eh) := let '(Eh _ _ st _ _ _ _) := h in st.
Definition h_max (h : eh) := let '(Eh _ _ _ mx _ _ _) := h in mx.
Definition h_aroff (h : eh) := let '(Eh _ _ _ _ ao _ _) := h in ao.
Definition h_ar (h : eh) := let '(Eh _ _ _ _ _ ar _) := h in ar.
Definition h_ch (h : eh) := let '(Eh _ _ _ _ _ _ ch) := h in ch.

(* elf_readall.c:43-66 set_address and 128-142: what happens to the handle itself is what happens to each child that has no address yet *)
Fixpoint set_address (m : bytes) (offset : Z) (h : eh) : eh :=
  match h with
  | Eh fd None st mx ao ar ch => Eh fd (Some m) (st - offset) mx (if ar then ao - offset else ao) ar (if ar then map (set_address m offset) ch else ch)
  | _ => h
  end.
(* elf_readall.c:69-159 __libelf_readall; file is what the descriptor of the handle gives *)
Definition readall (file : bytes) (h : eh) : outcome eh :=
  match h_mp h with
  | Some _ => Ok h
  | None => if h_fd h =? -1 then Err ELF_E_INVALID_HANDLE
            else if zlen file <? h_start h + h_max h then Err ELF_E_READ_ERROR
            else Ok (set_address (zsub file (h_start h) (h_max h)) (h_start h) h)
  end.
(* elf_cntl.c:39-81; ELF_C_FDDONE and ELF_C_FDREAD as in libelf.h *)
Inductive cmd := Fdread | Fddone | Othercmd.
Definition close_fd (h : eh) : eh := let '(Eh _ mp st mx ao ar ch) := h in Eh (-1) mp st mx ao ar ch.
Definition elf_cntl (file : bytes) (h : eh) (c : cmd) : Z * eh :=
  if h_fd h =? -1 then (-1, h)
  else match c with
       | Fdread => match readall file h with Ok h' => (0, close_fd h') | _ => (-1, h) end
       | Fddone => (0, close_fd h)
       | Othercmd => (-1, h)
       end.
(* How the library gets at n bytes of a handle, for example elf_getdata.c:296-357, elf_getdata_rawchunk.c:81-117: from memory, or with pread; None if it cannot *)
Definition view (file : bytes) (h : eh) (off n : Z) : option bytes :=
  match h_mp h with
  | Some m => if h_start h + off + n <=? zlen m then Some (zsub m (h_start h + off) n) else None
  | None => if h_fd h =? -1 then None else if h_start h + off + n <=? zlen file then Some (zsub file (h_start h + off) n) else None
  end.
(* elf_rawfile.c:39-66 elf_rawfile for a handle that is not NULL: the bytes at the pointer that is returned (as many as are counted), the size, and the handle afterwards *)
Definition elf_rawfile (file : bytes) (h : eh) : outcome (bytes * Z * eh) :=
  match readall file h with
  | Ok h' => match h_mp h' with Some m => Ok (zsub m (h_start h') (h_max h'), h_max h', h') | None => UB end
  | Err e => Err e | UB => UB | Fuel => Fuel
  end.
(* elf_getbase.c:40-43 elf_getbase *)
Definition elf_getbase (h : eh) : Z := h_start h.
(* elf_getaroff.c:42-53 elf_getaroff of a member of the archive parent; struct ar_hdr has 60 bytes *)
Definition elf_getaroff (parent h : eh) : Z := h_start h - 60 - h_start parent.
