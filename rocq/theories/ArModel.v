(* Archives: libelf/elf_begin.c (read_long_names, __libelf_next_arhdr_wrlock, dup_elf for an
   archive), elf_next.c, elf_rand.c, elf_getarhdr.c, elf_getarsym.c.
   The file is a list of bytes.  With [r_mapped] it is mapped at map_address and reading outside
   it is UB; otherwise pread_retry reads as much as the file has.  malloc fails only for sizes
   larger than the file. *)
From Verif Require Import Base LebModel ElfErr HashModel DwModel.

(* libelfP.h:270-301: the parts of struct Elf that do not change: the file, map_address <> NULL,
   start_offset, maximum_size. *)
Record arc := Arc { r_mem : bytes; r_mapped : bool; r_so : Z; r_mx : Z }.
Definition byte_at (mem : bytes) (p : Z) : outcome Z := match znth mem p with Some b => Ok b | None => UB end.

(* strtol in base 10, as called by atol: white space, a sign, digits; out of range values are
   clamped. *)
Definition isspace (b : Z) : bool := ((9 <=? b) && (b <=? 13)) || (b =? 32).
Definition isdigit (b : Z) : bool := (48 <=? b) && (b <=? 57).
Fixpoint skip_space (fuel : nat) (mem : bytes) (p : Z) : outcome Z :=
  b <- byte_at mem p ;; if isspace b then match fuel with O => Fuel | S k => skip_space k mem (p + 1) end else Ok p.
Fixpoint digits (fuel : nat) (mem : bytes) (p acc : Z) : outcome Z :=
  b <- byte_at mem p ;; if isdigit b then match fuel with O => Fuel | S k => digits k mem (p + 1) (acc * 10 + (b - 48)) end else Ok acc.
Definition clamp (v : Z) : Z := if v <? - two63 then - two63 else if two63 - 1 <? v then two63 - 1 else v.
Definition atol (mem : bytes) (p : Z) : outcome Z :=
  p <- skip_space (length mem) mem p ;;
  b <- byte_at mem p ;;
  if b =? 45 then v <- digits (length mem) mem (p + 1) 0 ;; Ok (clamp (- v))
  else v <- digits (length mem) mem (if b =? 43 then p + 1 else p) 0 ;; Ok (clamp v).

(* pread_retry (fd, buf, n, off) == n, system.h; a negative offset fails *)
Definition readable (r : arc) (off n : Z) : bool := (0 <=? off) && (off + n <=? zlen (r_mem r)).
Definition SZ_HDR : Z := 60.
Definition even_up (n : Z) : Z := Z.land (u64 (n + 1)) (two64 - 2).                     (* (n + 1) & ~1l *)
Definition pad16 (l : bytes) : bytes := l ++ repeat 32 (16 - length l).
Definition bytes_eqb (a b : bytes) : bool := if list_eq_dec Z.eq_dec a b then true else false.
Definition NAME_INDEX : bytes := pad16 [47].
Definition NAME_SYM64 : bytes := pad16 [47; 83; 89; 77; 54; 52; 47].
Definition NAME_LONG : bytes := pad16 [47; 47].

(* elf_begin.c:777-797: NUL-terminate the names of the table.  47 is the slash. *)
Fixpoint index_of (x : Z) (l : bytes) : option nat :=
  match l with [] => None | y :: r => if y =? x then Some O else option_map S (index_of x r) end.
Fixpoint terminate (fuel : nat) (l : bytes) : bytes :=
  match fuel with
  | O => l
  | S k => match index_of 47 l with
           | None => repeat 0 (length l)
           | Some i => firstn i l ++ 0 :: (if (length l <=? S i)%nat then [] else terminate k (skipn (S i) l))
           end
  end.
(* elf_begin.c:707-747: the header of the table, its offset and the size it gives.  In a mapped
   file the offset is not relative to the start of the archive.  off_t arithmetic wraps. *)
Fixpoint find_long (fuel : nat) (r : arc) (off : Z) : outcome (option (Z * Z)) :=
  let at_ := if r_mapped r then off else r_so r + off in
  if (if r_mapped r then (r_mx r <? u64 off) || (r_mx r - u64 off <? SZ_HDR) else negb (readable r at_ SZ_HDR)) then Ok None
  else len <- (if r_mapped r then atol (r_mem r) (at_ + 48) else atol (zsub (r_mem r) at_ SZ_HDR) 48) ;;
       let len := u64 len in
       if bytes_eqb (zsub (r_mem r) at_ 16) NAME_LONG then Ok (Some (off, len))
       else match fuel with O => Fuel | S k => find_long k r (s64 (off + SZ_HDR + even_up len)) end.
(* elf_begin.c:707-802 read_long_names: the table, None for NULL *)
Definition read_long_names (fuel : nat) (r : arc) : outcome (option bytes) :=
  f <- find_long fuel r 8 ;;
  match f with
  | None => Ok None
  | Some (off, len) =>
    let at_ := if r_mapped r then off else r_so r + off in
    if (if r_mapped r then r_mx r - off - SZ_HDR <? len else negb (readable r (at_ + SZ_HDR) len)) then Ok None
    else let t := zsub (r_mem r) (at_ + SZ_HDR) len in Ok (Some (terminate (S (length t)) t))
  end.

(* The state of an archive, libelfP.h:387-403: the offset, Elf_Arhdr (libelf.h:194-203; the name
   is None for a null pointer) and the long names. *)
Record arhdr := Ah { h_name : option bytes; h_raw : bytes; h_date : Z; h_uid : Z; h_gid : Z; h_mode : Z; h_size : Z }.
Record ast := Ast { t_off : Z; t_hdr : arhdr; t_long : option bytes }.
Definition cstr (l : bytes) : bytes := match index_of 0 l with Some i => firstn i l | None => l end.
Definition with_name (h : arhdr) (n : option bytes) : arhdr := Ah n (h_raw h) (h_date h) (h_uid h) (h_gid h) (h_mode h) (h_size h).
Definition set_hdr (s : ast) (h : arhdr) : ast := Ast (t_off s) h (t_long s).
Fixpoint strip (l : bytes) : bytes := match l with [] => [] | x :: r => if x =? 32 then strip r else l end.
(* elf_begin.c:903-921: up to the slash; without one, 15 characters less the blanks at the end *)
Definition short_name (name : bytes) : bytes :=
  match index_of 47 name with Some i => cstr (firstn i name) | None => cstr (rev (strip (rev (firstn 15 name)))) end.
(* elf_begin.c:941-957 INT_FIELD: the field of n bytes at p *)
Definition int_field (mem : bytes) (p n : Z) : outcome Z :=
  l <- byte_at mem (p + n - 1) ;; if l =? 32 then atol mem p else atol (zsub mem p n ++ [0]) 0.

(* elf_begin.c:853-921: the name; the table of long names may be read now *)
Definition name_of (fuel : nat) (r : arc) (off : Z) (long : option bytes) : outcome (option bytes * option bytes) :=
  let mem := r_mem r in
  let name := zsub mem off 16 in
  c0 <- byte_at mem off ;;
  c1 <- byte_at mem (off + 1) ;;
  if c0 =? 47 then
    if (c1 =? 32) && bytes_eqb name NAME_INDEX then Ok (Some [47], long)
    else if (c1 =? 83) && bytes_eqb name NAME_SYM64 then Ok (Some [47; 83; 89; 77; 54; 52; 47], long)
    else if (c1 =? 47) && bytes_eqb name NAME_LONG then Ok (Some [47; 47], long)
    else if isdigit c1 then
      long' <- (match long with Some t => Ok (Some t) | None => read_long_names fuel r end) ;;
      match long' with
      | None => Ok (None, long')
      | Some t => i <- atol mem (off + 1) ;;
                  if zlen t <=? u64 i then Ok (None, long') else Ok (Some (cstr (skipn (Z.to_nat i) t)), long')
      end
    else Ok (None, long)
  else Ok (Some (short_name name), long).
(* elf_begin.c:805-981 __libelf_next_arhdr_wrlock: 0 or the error code, and the new state, which
   may be changed by a failure too *)
Definition next_arhdr (fuel : nat) (r : arc) (s : ast) : outcome (Z * ast) :=
  let mem := r_mem r in
  let off := t_off s in
  if (if r_mapped r then (u64 (r_so r + r_mx r) <? u64 off) || (u64 (r_so r + r_mx r) - u64 off <? SZ_HDR) else negb (readable r off SZ_HDR))
  then Ok (ELF_E_RANGE, s)
  else if negb (bytes_eqb (zsub mem (off + 58) 2) [96; 10]) then Ok (ELF_E_ARCHIVE_FMAG, s)
  else
    let h := t_hdr s in
    let raw := cstr (zsub mem off 16) in
    ' (name, long) <- name_of fuel r off (t_long s) ;;
    match name with
    | None => Ok (ELF_E_INVALID_ARCHIVE, Ast off (Ah (h_name h) raw (h_date h) (h_uid h) (h_gid h) (h_mode h) (h_size h)) long)
    | Some _ =>
      c <- byte_at mem (off + 48) ;;
      if c =? 32 then Ok (ELF_E_INVALID_ARCHIVE, Ast off (Ah name raw (h_date h) (h_uid h) (h_gid h) (h_mode h) (h_size h)) long)
      else
        date <- int_field mem (off + 16) 12 ;;
        uid <- int_field mem (off + 28) 6 ;;
        gid <- int_field mem (off + 34) 6 ;;
        mode <- int_field mem (off + 40) 8 ;;
        size <- int_field mem (off + 48) 10 ;;
        let hdr size := Ast off (Ah name raw date (u32 uid) (u32 gid) (u32 mode) size) long in
        if size <? 0 then Ok (ELF_E_INVALID_ARCHIVE, hdr size)
        else let maxsize := u64 (r_so r + r_mx r - off - SZ_HDR) in
             Ok (0, hdr (if maxsize <? size then s64 maxsize else size))
    end.

(* elf_begin.c:52-70 file_read_ar with calloc *)
Definition ar_open (r : arc) : ast := Ast (r_so r + 8) (Ah None [] 0 0 0 0 0) None.
(* elf_begin.c:1021-1044 dup_elf for an archive: the place and the size of the member.
   read_file :641-645 asserts that the size is not -1; in a mapped file :541-544 looks at the
   first 8 bytes if there are that many. *)
Definition ar_begin (fuel : nat) (r : arc) (s : ast) : outcome (option (Z * Z) * ast) :=
  ' (e, s) <- (match h_name (t_hdr s) with Some _ => Ok (0, s) | None => next_arhdr fuel r s end) ;;
  if negb (e =? 0) then Ok (None, s)
  else let size := u64 (h_size (t_hdr s)) in
       let p := t_off s + SZ_HDR in
       if size =? two64 - 1 then UB
       else if r_mapped r && (8 <=? size) && (zlen (r_mem r) <? p + 8) then UB
       else Ok (Some (p, size), s).
(* elf_next.c:42-72 of a member of the archive: whether there is a next one *)
Definition ar_next (fuel : nat) (r : arc) (s : ast) : outcome (bool * ast) :=
  let s := Ast (s64 (t_off s + SZ_HDR + even_up (h_size (t_hdr s)))) (t_hdr s) (t_long s) in
  ' (e, s) <- next_arhdr fuel r s ;;
  if e =? 0 then Ok (true, s) else Ok (false, set_hdr s (with_name (t_hdr s) None)).
(* elf_rand.c:40-63 *)
Definition ar_rand (fuel : nat) (r : arc) (s : ast) (offset : Z) : outcome (Z * ast) :=
  let s := Ast (s64 (r_so r + offset)) (t_hdr s) (t_long s) in
  ' (e, s) <- next_arhdr fuel r s ;;
  if e =? 0 then Ok (offset, s) else Ok (0, set_hdr s (with_name (t_hdr s) None)).
(* elf_getarhdr.c:41-73 for a member: the header of the archive's current position *)
Definition ar_gethdr (fuel : nat) (r : arc) (s : ast) : outcome (option arhdr * ast) :=
  match h_name (t_hdr s) with
  | Some _ => Ok (Some (t_hdr s), s)
  | None =>
    ' (e, s) <- next_arhdr fuel r s ;;
    if e =? 0 then Ok (Some (t_hdr s), s)
    else ' (e, s) <- next_arhdr fuel r s ;;
         if e =? 0 then Ok (Some (t_hdr s), s) else Ok (None, s)
  end.
(* The loop of every user: elf_begin, elf_next, elf_begin with the command elf_next gave.  The
   members, with the header elf_getarhdr gives for each, and the final state. *)
Fixpoint ar_walk (steps fuel : nat) (r : arc) (s : ast) : outcome (list (Z * Z * arhdr) * ast) :=
  match steps with
  | O => Fuel
  | S k =>
    ' (m, s) <- ar_begin fuel r s ;;
    match m with
    | None => Ok ([], s)
    | Some m =>
      let h := t_hdr s in
      ' (more, s) <- ar_next fuel r s ;;
      if more : bool then ' (l, s) <- ar_walk k fuel r s ;; Ok ((m, h) :: l, s) else Ok ([(m, h)], s)
    end
  end.

(* ------------------------------------------------------------------ *)
(* elf_getarsym.c.  An entry: name, offset, hash; the last one has the null name. *)
Record arsym := Sym { y_name : option bytes; y_off : Z; y_hash : Z }.
(* :277-314 the n entries: [file] holds the offsets, [str] the strings.  A string is read to its
   NUL wherever that is (rawmemchr). *)
Fixpoint sym_loop (n : nat) (w : Z) (file : bytes) (p : Z) (str : bytes) : outcome (list arsym) :=
  match n with
  | O => Ok [Sym None 0 (two64 - 1)]
  | S k =>
    off <- rd false file p w ;;
    hash <- dl_elf_hash str ;;
    match index_of 0 str with
    | None => UB
    | Some i => l <- sym_loop k w file (p + w) (skipn (S i) str) ;; Ok (Sym (Some (firstn i str)) off hash :: l)
    end
  end.
(* :76-330, the first call: the entries or the error code.  [sizeof u] bytes are read for the
   count when the file is mapped. *)
Definition read_arsym (r : arc) : outcome (list arsym) :=
  let mem := r_mem r in
  let p := r_so r + 8 in
  if (if r_mapped r then r_mx r <? 8 + SZ_HDR else negb (readable r p SZ_HDR)) then Err (if r_mapped r then ELF_E_NO_INDEX else ELF_E_READ_ERROR)
  else if negb (bytes_eqb (zsub mem (p + 58) 2) [96; 10]) then Err ELF_E_ARCHIVE_FMAG
  else
    let name := zsub mem p 16 in
    if negb (bytes_eqb name NAME_INDEX) && negb (bytes_eqb name NAME_SYM64) then Err ELF_E_NO_INDEX
    else
      let w := if bytes_eqb name NAME_INDEX then 4 else 8 in
      let off := p + SZ_HDR in
      n <- (if r_mapped r then _ <- rd false mem off 8 ;; rd false mem off w else if readable r off w then rd false mem off w else Err ELF_E_NO_INDEX) ;;
      let off := off + w in
      index_size <- atol (zsub mem (p + 48) 10 ++ [0]) 0 ;;
      let index_size := u64 index_size in
      if (r_mx r <? index_size) || (r_mx r - index_size <? 8 + SZ_HDR) || (index_size / w <? n) then Err ELF_E_NO_INDEX
      else
        let sz := n * w in
        if r_mapped r then sym_loop (Z.to_nat n) w mem off (skipn (Z.to_nat (off + sz)) mem)
        else if readable r off sz && readable r (off + sz) (index_size - sz)
             then sym_loop (Z.to_nat n) w (zsub mem off sz) 0 (zsub mem (off + sz) (index_size - sz))
             else Err ELF_E_NO_INDEX.
(* :76-330 with the memory of earlier calls: None not read, Some None no index.  After a failed
   read of the data (:236-246) the code tries again at the next call and fails in the same way;
   here it remembers the failure. *)
Definition getarsym (r : arc) (c : option (option (list arsym))) : outcome (list arsym) * option (option (list arsym)) :=
  match c with
  | Some None => (Err ELF_E_NO_INDEX, c)
  | Some (Some l) => (Ok l, c)
  | None => match read_arsym r with Ok l => (Ok l, Some (Some l)) | o => (o, Some None) end
  end.
