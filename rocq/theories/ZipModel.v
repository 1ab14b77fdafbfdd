(* Model of opening files that are compressed or have a boot header: libdwfl/gzip.c (also built as bzip2.c and lzma.c), libdwfl/open.c, libdwfl/image-header.c.
   The decompression libraries, libelf's idea of the kind of a file and realloc are parameters.  pread is taken to work. *)
From Verif Require Import Base.

Inductive zerr := E_BADELF | E_NOMEM | E_ZLIB.
Inductive zout := Zok (b : bytes) | Zfail (e : zerr) | Zub | Zfuel.

(* gzip.c:88-100 bigger_buffer: the new size.  [alloc old new] tells if realloc from old to new works *)
Fixpoint shrink (alloc : Z -> Z -> bool) (k : nat) (size more : Z) : option Z :=
  if alloc size more then Some more
  else match k with
       | O => None
       | S k => if size + 1024 <=? more then shrink alloc k size (more - 1024) else None
       end.
Definition bigger (alloc : Z -> Z -> bool) (size start : Z) : option Z :=
  let more := if size =? 0 then start else u64 (size * 2) in shrink alloc (Z.to_nat (more / 1024)) size more.

(* gzip.c:205-207: sizeof magic counts the terminator of the string *)
Definition no_magic (b magic : bytes) : bool := (zlen b <=? zlen magic + 1) || negb (if list_eq_dec Z.eq_dec (zsub b 0 (zlen magic)) magic then true else false).
(* gzip.c:43, 44, 56, 68 *)
Definition GZ : bytes := [31; 139].
Definition BZ : bytes := [66; 90; 104].
Definition XZ : bytes := [253; 55; 122; 88; 90; 0].
Definition LZ : bytes := [93; 0].

(* zlib: gzread at a position of the data with room for so much; None for an error *)
Section gz.
Variables (alloc : Z -> Z -> bool) (gzread : Z -> Z -> option bytes).
(* gzip.c:274-295: the room is an unsigned int for gzread, which refuses what is no int *)
Definition gz_call (pos room : Z) : option bytes := if 2147483647 <? u32 room then None else gzread pos (u32 room).
Fixpoint gz_loop (k : nat) (buf : bytes) (size : Z) : zout :=
  match k with
  | O => Zfuel
  | S k =>
      match bigger alloc size 1024 with
      | None => Zfail E_NOMEM
      | Some size =>
          match gz_call (zlen buf) (size - zlen buf) with
          | None => Zfail E_ZLIB
          | Some n => if size - zlen buf <? zlen n then Zub else if zlen n =? 0 then Zok buf else gz_loop k (buf ++ n) size
          end
      end
  end.
End gz.

(* libbz2 and liblzma: a decoder takes some of the input, gives some output, and says how it went *)
Inductive zres := ZOK | ZEND | ZERR.
Section inflate.
Variables (alloc : Z -> Z -> bool) (Zs : Type) (code : Zs -> bytes -> Z -> zres * Z * bytes * Zs) (file : bytes) (mapd : bool).

(* gzip.c:85 READ_SIZE *)
Definition READ : Z := 1048576.
(* gzip.c:231-263: inp is the input left, pos where the input that follows is in the file, buf the output, size that of the output buffer *)
Fixpoint loop (k : nat) (z : Zs) (inp : bytes) (pos : Z) (buf : bytes) (size : Z) : zout :=
  match k with
  | O => Zfuel
  | S k =>
      let fill := (zlen inp =? 0) && negb mapd in
      let inp' := if fill then zsub file pos READ else inp in
      let pos' := if fill then pos + zlen inp' else pos in
      match (if zlen buf =? size then bigger alloc size (zlen inp') else Some size) with
      | None => Zfail E_NOMEM
      | Some size =>
          let '(r, c, o, z) := code z inp' (size - zlen buf) in
          if (size - zlen buf <? zlen o) || (zlen inp' <? c) then Zub
          else match r with
               | ZOK => loop k z (skipn (Z.to_nat c) inp') pos' (buf ++ o) size
               | ZEND => Zok (buf ++ o)
               | ZERR => Zfail E_ZLIB
               end
      end
  end.
(* gzip.c:167-229, USE_INFLATE: the file from start_offset on *)
Definition inflate (k : nat) (z0 : Zs) (magics : list bytes) : zout :=
  let first := if mapd then file else zsub file 0 READ in
  if forallb (no_magic first) magics then Zfail E_BADELF
  else loop k z0 first (zlen first) [] 0.
End inflate.

(* gzip.c:167-297 for gzip.  [direct] is gzdirect, true for what zlib does not take for a gzip file *)
Definition gunzip (alloc : Z -> Z -> bool) (gzread : Z -> Z -> option bytes) (direct : bool) (k : nat) (file : bytes) : zout :=
  if no_magic file GZ then Zfail E_BADELF
  else if direct then Zfail E_BADELF
  else gz_loop alloc gzread k [] 0.

(* open.c:46-94 decompress: the three formats in turn *)
Definition or_else (a b : zout) : zout := match a with Zfail E_BADELF => b | _ => a end.
Definition decompress (gun bun lun : bytes -> zout) (f : bytes) : zout :=
  if zlen f =? 0 then Zfail E_BADELF
  else match or_else (or_else (gun f) (bun f)) (lun f) with
       | Zok b => if zlen b =? 0 then Zfail E_BADELF else Zok b
       | r => r
       end.

(* image-header.c:61-105: where the payload is; None for DWFL_E_BADELF *)
Definition word (b : bytes) (off n : Z) : Z := le_value (zsub b off n).
Definition header_at (f : bytes) (h : bytes) (start : Z) : option Z :=
  let w off n := word h (off - start) n in
  if (w 510 2 =? 43605) && (w 514 4 =? 1400005704) && (520 <=? w 518 2) then
    let sects := w 497 1 in
    let off := u32 (w 584 4 + ((if sects =? 0 then 4 else sects) + 1) * 512) in
    if (592 <? off) && (off <? zlen f) && (w 588 4 <=? zlen f - off) then Some off else None
  else None.
Definition image_header (mapd : bool) (f : bytes) : option Z :=
  if 592 <? zlen f then
    if mapd then header_at f f 0
    else header_at f (zsub f 496 96) 496
  else None.

(* open.c:96-181 *)
Inductive ekind := K_NONE | K_AR | K_ELF.
Section open.
Variables (kind : bytes -> ekind) (unpack : bytes -> zout) (mapd : bool).

(* open.c:96-117 what_kind: the contents, their kind, and whether the descriptor can be closed *)
Definition what_kind (f : bytes) : zout * ekind * bool :=
  match kind f with
  | K_NONE => match unpack f with Zok b => (Zok b, kind b, true) | r => (r, K_NONE, false) end
  | k => (Zok f, k, false)
  end.
(* open.c:119-181 libdw_open_elf: what is opened, and whether the descriptor was closed *)
Definition open_elf (close_on_fail archive_ok never_close : bool) (f : bytes) : zout * bool :=
  let '(r, k, may) :=
    match what_kind f with
    | (Zfail E_BADELF, k, may) =>
        match image_header mapd f with
        | None => (Zfail E_BADELF, k, may)
        | Some off => what_kind (zsub f off (zlen f - off))
        end
    | x => x
    end in
  let r := match r with
           | Zok b => if (match k with K_ELF => true | K_AR => archive_ok | K_NONE => false end) then Zok b else Zfail E_BADELF
           | r => r end in
  let ok := match r with Zok _ => true | _ => false end in
  (r, if negb never_close && ok then may else close_on_fail).
End open.
