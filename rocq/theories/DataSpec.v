(* What section data should be, independent of the code's helpers. *)
From Verif Require Import Base XlateModel XlateSpec DataModel.

(* The file is as large as the library was told when opening it, and it can be
   read. *)
Definition file_ok (f : efile) : Prop :=
  0 <= f_start f /\ 0 <= f_max f < two64 /\ f_start f + f_max f <= zlen (f_img f) /\
  bytes_ok (f_img f) /\ (f_map f = true \/ f_fd f = true) /\ (f_hashent f = 4 \/ f_hashent f = 8).
Definition hdr_ok (h : shdr) : Prop :=
  is_u32 (sh_type h) /\ is_u64 (sh_flags h) /\ is_u64 (sh_offset h) /\ is_u64 (sh_size h) /\
  is_u64 (sh_addralign h).

Definition compressed (h : shdr) : bool := Z.testbit (sh_flags h) 11.
(* The section occupies bytes of the file (8: SHT_NOBITS). *)
Definition has_data (h : shdr) : bool := negb (sh_size h =? 0) && negb (sh_type h =? 8).
(* The bytes the header names, and whether the file has them. *)
Definition section_bytes (f : efile) (h : shdr) : bytes :=
  zsub (f_img f) (f_start f + sh_offset h) (sh_size h).
Definition in_file (f : efile) (h : shdr) : Prop := sh_offset h + sh_size h <= f_max f.

(* The Elf_Type of the content and the size of its records, by section type
   (System V gABI and the GNU and Sun extensions).  1: the content is a byte
   string or has a variable layout. *)
Definition content (f : efile) (h : shdr) : Z * Z :=
  let c64 := f_c64 f in
  if compressed h then (25, 1) else
  let t := sh_type h in
  if (t =? 2) || (t =? 11) then (11, if c64 then 24 else 16)           (* SYMTAB, DYNSYM *)
  else if t =? 4 then (7, if c64 then 24 else 12)                      (* RELA *)
  else if t =? 5 then (if c64 && negb (f_hashent f =? 4) then 13 else 12, f_hashent f)   (* HASH *)
  else if t =? 6 then (2, if c64 then 16 else 8)                       (* DYNAMIC *)
  else if t =? 7 then (if sh_addralign h =? 8 then 26 else 19, 1)      (* NOTE *)
  else if t =? 9 then (8, if c64 then 16 else 8)                       (* REL *)
  else if (t =? 14) || (t =? 15) || (t =? 16) then (1, if c64 then 8 else 4)   (* arrays of addresses *)
  else if (t =? 17) || (t =? 18) then (12, 4)                          (* GROUP, SYMTAB_SHNDX *)
  else if t =? 1879048182 then (23, if c64 then 1 else 4)              (* GNU_HASH *)
  else if t =? 1879048183 then (22, 20)                                (* GNU_LIBLIST *)
  else if t =? 1879048186 then (21, 28)                                (* SUNW_move *)
  else if t =? 1879048188 then (20, 4)                                 (* SUNW_syminfo *)
  else if t =? 1879048189 then (15, 1)                                 (* GNU_verdef *)
  else if t =? 1879048190 then (17, 16)                                (* GNU_verneed *)
  else if t =? 1879048191 then (4, 2)                                  (* GNU_versym *)
  else (0, 1).

Definition whole_records (f : efile) (h : shdr) : Prop := sh_size h mod snd (content f h) = 0.
(* The section's data can be delivered. *)
Definition deliverable (f : efile) (h : shdr) : Prop :=
  has_data h = true -> whole_records f h /\ in_file f h.

(* The content in the byte order of the host, where this is a table of fixed
   records, bytes, or compressed data. *)
Definition host_bytes (f : efile) (h : shdr) : option bytes :=
  let raw := section_bytes f h in
  if f_native f then Some raw
  else if compressed h then Some (swap_chdr (f_c64 f) raw)
  else match spec_widths (f_c64 f) (fst (content f h)) with
       | Some ws =>
         if sh_size h mod Z.of_nat (total ws) =? 0
         then Some (swap_records ws (Z.to_nat (sh_size h / Z.of_nat (total ws))) raw) else None
       | None => None
       end.

(* The alignment delivered with the data: none is 1, and it is limited by the
   offset in the file. *)
Definition data_align (h : shdr) : Z :=
  let a := if sh_addralign h =? 0 then 1 else sh_addralign h in
  if negb (sh_type h =? 8) && (sh_offset h <? a) then sh_offset h else a.

(* There is a NUL at or after position o of the string table b. *)
Definition terminated (b : bytes) (o : Z) : Prop := exists k, o <= k < zlen b /\ znth b k = Some 0.

(* The fields of the compression header, in the byte order of the file: type,
   uncompressed size, alignment (gABI). *)
Definition file_value (f : efile) (b : bytes) : Z :=
  if Bool.eqb (f_native f) (f_le f) then le_value b else be_value b.
Definition chdr_of (f : efile) (h : shdr) : Z * Z * Z :=
  let b := section_bytes f h in
  if f_c64 f then (file_value f (zsub b 0 4), file_value f (zsub b 8 8), file_value f (zsub b 16 8))
  else (file_value f (zsub b 0 4), file_value f (zsub b 4 4), file_value f (zsub b 8 4)).

(* zlib: inflate never writes more than it is given room for, and consumes
   input. *)
Definition z_safe (z : zlib) : Prop :=
  forall inp room out rest, z_infl z inp room = Some (out, rest) ->
    zlen out <= room /\ (length rest < length inp)%nat.
(* ... and undoes deflate, whose output is at most 1032 times smaller. *)
Definition z_lossless (z : zlib) : Prop :=
  forall b, bytes_ok b ->
    z_defl z b <> [] /\ zlen b / 1032 <= zlen (z_defl z b) /\ bytes_ok (z_defl z b) /\
    forall room, zlen b <= room -> z_infl z (z_defl z b) room = Some (b, []).

(* ------------------------------------------------------------------ *)
(* Histories of reading one section: any calls, in any order, each with its own
   outcome of memory allocation, alignment and content of fresh memory. *)
Record env := Env { e_al : bool; e_aligned : bool; e_junk : Z -> Z }.
Inductive rop := ORaw | OGet | OStr (off : Z).
Inductive robs :=
| ObData (d : edat) | ObNone (e : option Z)           (* elf_rawdata, elf_getdata *)
| ObStr (b : bytes) (o : Z) | ObNoStr (e : option Z).  (* elf_strptr *)

Definition rstep (z : zlib) (f : efile) (e : env) (op : rop) (s : sec) : outcome (sec * robs) :=
  match op with
  | ORaw => ' (s', r) <- rawdata (e_al e) f s DNull ;;
            Ok (s', match r with None => ObData (s_raw s') | Some _ => ObNone r end)
  | OGet => ' (s', r) <- getdata (e_al e) (e_aligned e) (e_junk e) f s DNull ;;
            match r with
            | RData i => match data_at s' i with Some d => Ok (s', ObData d) | None => UB end
            | RNull e => Ok (s', ObNone e)
            end
  | OStr o => ' (s', (r, e)) <- strptr (e_al e) (e_aligned e) (e_junk e) z f s o ;;
              Ok (s', match r with Some (b, p) => ObStr b p | None => ObNoStr e end)
  end.
Fixpoint rrun (z : zlib) (f : efile) (ops : list (env * rop)) (s : sec) : outcome (sec * list robs) :=
  match ops with
  | [] => Ok (s, [])
  | (e, op) :: r => ' (s1, o) <- rstep z f e op s ;;
                    ' (s2, os) <- rrun z f r s1 ;; Ok (s2, o :: os)
  end.
Definition off_ok (op : rop) : Prop := match op with OStr o => 0 <= o | _ => True end.

(* What a call has to deliver when memory is available. *)
Definition good (f : efile) (h : shdr) (op : rop) (ob : robs) : Prop :=
  match op with
  | ORaw =>
    (deliverable f h /\ exists d, ob = ObData d /\ ed_size d = sh_size h /\ ed_off d = 0 /\
       ed_type d = fst (content f h) /\ ed_align d = data_align h /\
       ed_buf d = (if has_data h then Some (section_bytes f h) else None)) \/
    (~ deliverable f h /\ exists e, ob = ObNone (Some e))
  | OGet =>
    (deliverable f h /\ exists d, ob = ObData d /\ ed_size d = sh_size h /\ ed_off d = 0 /\
       ed_type d = fst (content f h) /\ ed_align d = data_align h /\
       ed_buf d = (if has_data h then host_bytes f h else None)) \/
    (~ deliverable f h /\ exists e, ob = ObNone (Some e))
  | OStr o =>
    if (sh_type h =? 3) && negb (compressed h) then
      (deliverable f h /\ o < sh_size h /\ terminated (section_bytes f h) o /\ ob = ObStr (section_bytes f h) o) \/
      ((~ deliverable f h \/ sh_size h <= o \/ ~ terminated (section_bytes f h) o) /\ exists e, ob = ObNoStr (Some e))
    else if sh_type h =? 3 then
      (exists b, terminated b o /\ ob = ObStr b o) \/ (exists e, ob = ObNoStr (Some e))
    else exists e, ob = ObNoStr (Some e)
  end.

(* The data of a section given as a list of blocks (a new or changed section). *)
Definition block_ok (d : edat) : Prop :=
  0 <= ed_off d /\ 0 <= ed_size d /\ ed_off d + ed_size d < two64 /\
  (0 < ed_size d -> exists b, ed_buf d = Some b /\ zlen b = ed_size d).
Definition covers (d : edat) (o : Z) : Prop := ed_off d <= o < ed_off d + ed_size d.
Definition blocks (s : sec) : list edat := s_first s :: s_rest s.

(* 0 or a power of two below 2^64 *)
Definition pow2 (a : Z) : Prop := a = 0 \/ exists k, 0 <= k < 64 /\ a = 2 ^ k.

(* The bytes of a piece of the file in host order, as records of the given type. *)
Definition chunk_bytes (f : efile) (off size ty : Z) : option bytes :=
  let raw := zsub (f_img f) (f_start f + off) size in
  if f_native f then Some raw
  else match spec_widths (f_c64 f) ty with
       | Some ws => if size mod Z.of_nat (total ws) =? 0
                    then Some (swap_records ws (Z.to_nat (size / Z.of_nat (total ws))) raw) else None
       | None => None
       end.

(* elf_getdata can present the content in host order. *)
Definition convertible (f : efile) (h : shdr) : Prop :=
  has_data h = true -> whole_records f h -> host_bytes f h <> None.

(* A section that can be compressed: plain data in the file, loaded or not. *)
Record compressible (f : efile) (h : shdr) (hb : bytes) : Prop := Compressible {
  cp_noalloc : Z.testbit (sh_flags h) 1 = false;
  cp_plain : compressed h = false;
  cp_type : sh_type h <> 0 /\ sh_type h <> 8;
  cp_size : 0 < sh_size h < two32;
  cp_del : deliverable f h;
  cp_host : host_bytes f h = Some hb }.
(* The alignment the compression header keeps; in class 32 it is the data's. *)
Definition kept_align (f : efile) (h : shdr) : Z := if f_c64 f then sh_addralign h else data_align h.
(* The header is one of its class. *)
Definition fits_class (f : efile) (h : shdr) : Prop :=
  f_c64 f = false -> is_u32 (sh_addralign h).
