(* Model of the byte-order conversion functions of libelf:
   libelf/gelf_xlate.c, gelf_xlate.h, abstract.h, chdr_xlate.h, note_xlate.h,
   version_xlate.h, gnuhash_xlate.h, elf32_xlatetom.c, elf32_xlatetof.c
   (elf64_xlatetom.c / elf64_xlatetof.c include the latter two) and the size
   table of gelf_fsize.c.

   Memory is a map from addresses to byte values, so source and destination may
   be the same buffer, overlap or be disjoint.  Simplification: addresses are
   unbounded integers (pointer arithmetic does not wrap); the record conversions
   perform no check of their own and are total here, the hand-written
   conversions check each access against the two buffers and yield [UB] outside
   them.  The host byte order is the parameter [le]. *)
From Verif Require Import Base ElfErr.

Definition mem := Z -> Z.

Definition rdm (m : mem) (a : Z) (n : nat) : bytes :=
  map (fun i => m (a + Z.of_nat i)) (seq 0 n).

Definition wrm (m : mem) (a : Z) (b : bytes) : mem :=
  fun x => if (a <=? x) && (x <? a + zlen b) then nth (Z.to_nat (x - a)) b 0 else m x.

(* ------------------------------------------------------------------ *)
(* libelf/libelf.h:92-124, Elf_Type. *)
Definition ELF_T_BYTE := 0.   Definition ELF_T_ADDR := 1.   Definition ELF_T_DYN := 2.
Definition ELF_T_EHDR := 3.   Definition ELF_T_HALF := 4.   Definition ELF_T_OFF := 5.
Definition ELF_T_PHDR := 6.   Definition ELF_T_RELA := 7.   Definition ELF_T_REL := 8.
Definition ELF_T_SHDR := 9.   Definition ELF_T_SWORD := 10. Definition ELF_T_SYM := 11.
Definition ELF_T_WORD := 12.  Definition ELF_T_XWORD := 13. Definition ELF_T_SXWORD := 14.
Definition ELF_T_VDEF := 15.  Definition ELF_T_VDAUX := 16. Definition ELF_T_VNEED := 17.
Definition ELF_T_VNAUX := 18. Definition ELF_T_NHDR := 19.  Definition ELF_T_SYMINFO := 20.
Definition ELF_T_MOVE := 21.  Definition ELF_T_LIB := 22.   Definition ELF_T_GNUHASH := 23.
Definition ELF_T_AUXV := 24.  Definition ELF_T_CHDR := 25.  Definition ELF_T_NHDR8 := 26.
Definition ELF_T_NUM := 27.

(* ------------------------------------------------------------------ *)
(* A step of a record conversion: the [width] bytes at [offset] of the record
   are stored reversed ([swp], libelf/gelf_xlate.c:95-106, bswap_16/32/64) or
   unchanged (plain copies of libelf/abstract.h, TYPE_XLATE). *)
Record fld := Fld { f_off : Z; f_swp : bool; f_w : nat }.
Definition sw (o : Z) (w : nat) := Fld o true w.
Definition cp (o : Z) (w : nat) := Fld o false w.

(* libelf/gelf_xlate.c:136-157 (TYPE_NAME2, FName##1): read the whole field,
   then store it. *)
Definition cvt_fld (d s : Z) (m : mem) (f : fld) : mem :=
  let v := rdm m (s + f_off f) (f_w f) in
  wrm m (d + f_off f) (if f_swp f then rev v else v).

Definition cvt_rec (fs : list fld) (m : mem) (d s : Z) : mem :=
  fold_left (cvt_fld d s) fs m.

(* libelf/gelf_xlate.c:138-147 (START): the loop over the records. *)
Fixpoint cvt_recs (n : nat) (sz : Z) (fs : list fld) (m : mem) (d s : Z) : mem :=
  match n with
  | O => m
  | S k => cvt_recs k sz fs (cvt_rec fs m d s) (d + sz) (s + sz)
  end.

Definition cvt_struct (sz : Z) (fs : list fld) (m : mem) (d s len : Z) : mem :=
  cvt_recs (Z.to_nat (len / sz)) sz fs m d s.

(* libelf/gelf_xlate.c:108-131 (INLINE3): upwards when dest < ptr, else from
   the end downwards. *)
Fixpoint cvt_fund_up (n : nat) (w : nat) (m : mem) (d s : Z) : mem :=
  match n with
  | O => m
  | S k => cvt_fund_up k w (wrm m d (rev (rdm m s w))) (d + Z.of_nat w) (s + Z.of_nat w)
  end.
Fixpoint cvt_fund_down (n : nat) (w : nat) (m : mem) (d s : Z) : mem :=
  match n with
  | O => m
  | S k => let d' := d - Z.of_nat w in let s' := s - Z.of_nat w in
           cvt_fund_down k w (wrm m d' (rev (rdm m s' w))) d' s'
  end.
Definition cvt_fund (w : nat) (m : mem) (d s len : Z) : mem :=
  let n := Z.to_nat (len / Z.of_nat w) in
  if d <? s then cvt_fund_up n w m d s else cvt_fund_down n w m (d + len) (s + len).

(* libelf/gelf_xlate.c:46-57: memmove. *)
Definition memmove (m : mem) (d s len : Z) : mem := wrm m d (rdm m s (Z.to_nat len)).

(* ------------------------------------------------------------------ *)
(* libelf/abstract.h: the steps of each record, with the field offsets of the
   structures of libelf/elf.h (x86-64 layout rules).  [c64] selects the class. *)
Definition fs_ehdr (c64 : bool) : list fld :=         (* abstract.h:31-48 *)
  if c64
  then [cp 0 16; sw 16 2; sw 18 2; sw 20 4; sw 24 8; sw 32 8; sw 40 8; sw 48 4;
        sw 52 2; sw 54 2; sw 56 2; sw 58 2; sw 60 2; sw 62 2]
  else [cp 0 16; sw 16 2; sw 18 2; sw 20 4; sw 24 4; sw 28 4; sw 32 4; sw 36 4;
        sw 40 2; sw 42 2; sw 44 2; sw 46 2; sw 48 2; sw 50 2].
Definition sz_ehdr (c64 : bool) := if c64 then 64 else 52.
Definition fs_phdr (c64 : bool) : list fld :=         (* abstract.h:57-80 *)
  if c64
  then [sw 0 4; sw 4 4; sw 8 8; sw 16 8; sw 24 8; sw 32 8; sw 40 8; sw 48 8]
  else [sw 0 4; sw 4 4; sw 8 4; sw 12 4; sw 16 4; sw 20 4; sw 24 4; sw 28 4].
Definition sz_phdr (c64 : bool) := if c64 then 56 else 32.
Definition fs_shdr (c64 : bool) : list fld :=         (* abstract.h:84-109 *)
  if c64
  then [sw 0 4; sw 4 4; sw 8 8; sw 16 8; sw 24 8; sw 32 8; sw 40 4; sw 44 4; sw 48 8; sw 56 8]
  else [sw 0 4; sw 4 4; sw 8 4; sw 12 4; sw 16 4; sw 20 4; sw 24 4; sw 28 4; sw 32 4; sw 36 4].
Definition sz_shdr (c64 : bool) := if c64 then 64 else 40.
Definition fs_sym (c64 : bool) : list fld :=          (* abstract.h:113-134 *)
  if c64
  then [sw 0 4; cp 4 1; cp 5 1; sw 6 2; sw 8 8; sw 16 8]
  else [sw 0 4; sw 4 4; sw 8 4; cp 12 1; cp 13 1; sw 14 2].
Definition sz_sym (c64 : bool) := if c64 then 24 else 16.
Definition fs_rel (c64 : bool) : list fld :=          (* abstract.h:138-147 *)
  if c64 then [sw 0 8; sw 8 8] else [sw 0 4; sw 4 4].
Definition sz_rel (c64 : bool) := if c64 then 16 else 8.
Definition fs_rela (c64 : bool) : list fld :=         (* abstract.h:149-160 *)
  if c64 then [sw 0 8; sw 8 8; sw 16 8] else [sw 0 4; sw 4 4; sw 8 4].
Definition sz_rela (c64 : bool) := if c64 then 24 else 12.
Definition fs_nhdr : list fld := [sw 0 4; sw 4 4; sw 8 4].   (* abstract.h:164-170 *)
Definition sz_nhdr := 12.
Definition fs_dyn (c64 : bool) : list fld :=          (* abstract.h:179-197 *)
  if c64 then [sw 0 8; sw 8 8] else [sw 0 4; sw 4 4].
Definition sz_dyn (c64 : bool) := if c64 then 16 else 8.
Definition fs_syminfo : list fld := [sw 0 2; sw 2 2].   (* abstract.h:263-268 *)
Definition sz_syminfo := 4.
(* abstract.h:276-283: m_info and m_poffset are converted as 64-bit words in both
   classes, while Elf32_Move (elf.h:1340-1347) has 32-bit members there. *)
Definition fs_move (c64 : bool) : list fld :=
  if c64 then [sw 0 8; sw 8 8; sw 16 8; sw 24 2; sw 26 2]
  else [sw 0 8; sw 8 8; sw 12 8; sw 16 2; sw 18 2].
Definition sz_move (c64 : bool) := if c64 then 32 else 24.
Definition fs_lib : list fld := [sw 0 4; sw 4 4; sw 8 4; sw 12 4; sw 16 4].  (* abstract.h:290-297 *)
Definition sz_lib := 20.
Definition fs_auxv (c64 : bool) : list fld :=         (* abstract.h:304-317 *)
  if c64 then [sw 0 8; sw 8 8] else [sw 0 4; sw 4 4].
Definition sz_auxv (c64 : bool) := if c64 then 16 else 8.
Definition fs_chdr (c64 : bool) : list fld :=         (* abstract.h:322-334 *)
  if c64 then [sw 0 4; sw 4 4; sw 8 8; sw 16 8] else [sw 0 4; sw 4 4; sw 8 4].
Definition sz_chdr (c64 : bool) := if c64 then 24 else 12.

(* libelf/chdr_xlate.h:5-33: only the header is converted. *)
Definition cvt_chdr (c64 : bool) (m : mem) (d s len : Z) : mem :=
  if len =? 0 then m else
  let m1 := if d =? s then m else memmove m d s len in
  if sz_chdr c64 <=? len then cvt_struct (sz_chdr c64) (fs_chdr c64) m1 d s (sz_chdr c64) else m1.

(* ------------------------------------------------------------------ *)
(* A 32-bit word in host order. *)
Definition host (le : bool) (b : bytes) : Z := if le then le_value b else be_value b.
Definition rd32 (le : bool) (m : mem) (a : Z) : Z := host le (rdm m a 4).

(* An access of n bytes at offset o of a buffer of len bytes. *)
Definition inside (len o n : Z) : bool := (0 <=? o) && (0 <=? n) && (o + n <=? len).
Definition chk {A : Type} (c : bool) (k : outcome A) : outcome A := if c then k else UB.

(* libelf/libelfP.h:628-634; -4U and -8U are 32-bit unsigned, so the mask clears
   the upper half of a 64-bit value. *)
Definition NOTE_ALIGN (nhdr8 : bool) (n : Z) : Z :=
  if nhdr8 then Z.land (u64 (n + 7)) (two32 - 8) else Z.land (u64 (n + 3)) (two32 - 4).

Definition overlap (a b n : Z) : bool := (a <? b + n) && (b <? a + n).

(* libelf/note_xlate.h:29-74.  off is the number of bytes both pointers have
   advanced, len the remaining length, tot the whole length. *)
Fixpoint cvt_note_loop (fuel : nat) (le enc nhdr8 : bool) (tot : Z)
    (m : mem) (d s off len : Z) : outcome mem :=
  match fuel with
  | O => Fuel
  | S fuel =>
    let leftover m :=
      if (0 <? len) && negb (d =? s)
      then chk (inside tot off len && negb (overlap (d + off) (s + off) len))
             (Ok (memmove m (d + off) (s + off) len))
      else Ok m in
    if sz_nhdr <=? len then
      chk (inside tot off sz_nhdr)
      (let m1 := cvt_rec fs_nhdr m (d + off) (s + off) in
       let n := (if enc then s else d) + off in
       let namesz := rd32 le m1 n in
       let descsz := rd32 le m1 (n + 4) in
       let nl := NOTE_ALIGN nhdr8 (u64 (sz_nhdr + namesz)) in
       if (len <? nl) || (nl <? 8) then leftover m1 else
       let nl2 := NOTE_ALIGN nhdr8 (u64 (nl + descsz)) in
       if (len <? nl2) || (nl2 <? 8) then leftover m1 else
       let dl := u64 (nl2 - sz_nhdr) in
       if d =? s then cvt_note_loop fuel le enc nhdr8 tot m1 d s (off + nl2) (len - nl2)
       else chk (inside tot (off + sz_nhdr) dl
                 && negb (overlap (d + off + sz_nhdr) (s + off + sz_nhdr) dl))
              (cvt_note_loop fuel le enc nhdr8 tot
                 (memmove m1 (d + off + sz_nhdr) (s + off + sz_nhdr) dl)
                 d s (off + nl2) (len - nl2)))
    else leftover m
  end.

(* Fuel: every round consumes at least 8 bytes. *)
Definition cvt_note (le enc nhdr8 : bool) (m : mem) (d s len : Z) : outcome mem :=
  cvt_note_loop (S (Z.to_nat len)) le enc nhdr8 len m d s 0 len.

(* ------------------------------------------------------------------ *)
(* libelf/version_xlate.h.  elf_cvt_Verdef (36-133) and elf_cvt_Verneed
   (136-230) are the same walk over different records. *)
Record verkind := VK {
  vk_sz : Z; vk_fs : list fld; vk_aux : Z; vk_next : Z;
  vk_asz : Z; vk_afs : list fld; vk_anext : Z }.

(* elf.h Elf32_Verdef / Elf32_Verdaux (the 64-bit ones are identical). *)
Definition vk_def : verkind :=
  VK 20 [sw 0 2; sw 2 2; sw 4 2; sw 6 2; sw 8 4; sw 12 4; sw 16 4] 12 16
     8 [sw 0 4; sw 4 4] 4.
(* elf.h Elf32_Verneed / Elf32_Vernaux. *)
Definition vk_need : verkind :=
  VK 16 [sw 0 2; sw 2 2; sw 4 4; sw 8 4; sw 12 4] 8 12
     16 [sw 0 4; sw 4 2; sw 6 2; sw 8 4; sw 12 4] 12.

(* version_xlate.h:89-109 / 187-210: the auxiliary records.  Yields true when
   the function returns early (107-108: offset outside the data). *)
Fixpoint ver_aux (fuel : nat) (k : verkind) (le enc : bool) (len : Z)
    (m : mem) (d s ao : Z) : outcome (mem * bool) :=
  match fuel with
  | O => Fuel
  | S fuel =>
    if (len <? ao) || (len - ao <? vk_asz k) then Ok (m, true) else
    chk (inside len ao (vk_asz k))
    (let ao1 := if enc then u64 (ao + rd32 le m (s + ao + vk_anext k)) else ao in
     let m1 := cvt_rec (vk_afs k) m (d + ao) (s + ao) in
     let ao2 := if enc then ao1 else u64 (ao1 + rd32 le m1 (d + ao + vk_anext k)) in
     if rd32 le m1 (s + ao + vk_anext k) =? 0 then Ok (m1, false)
     else ver_aux fuel k le enc len m1 d s ao2)
  end.

(* version_xlate.h:62-132 / 162-229. *)
Fixpoint ver_defs (fuel : nat) (k : verkind) (le enc : bool) (len : Z)
    (m : mem) (d s off : Z) : outcome mem :=
  match fuel with
  | O => Fuel
  | S fuel =>
    if (len <? off) || (len - off <? vk_sz k) then Ok m else
    chk (inside len off (vk_sz k))
    (let m1 := if enc then m else cvt_rec (vk_fs k) m (d + off) (s + off) in
     let ao := u64 (off + rd32 le m1 ((if enc then s else d) + off + vk_aux k)) in
     ' (m2, early) <- ver_aux (S (Z.to_nat len)) k le enc len m1 d s ao ;;
     if (early : bool) then Ok m2 else
     let off1 := if enc then u64 (off + rd32 le m2 (s + off + vk_next k))
                 else u64 (off + rd32 le m2 (d + off + vk_next k)) in
     let m3 := if enc then cvt_rec (vk_fs k) m2 (d + off) (s + off) else m2 in
     if rd32 le m3 (s + off + vk_next k) =? 0 then Ok m3
     else ver_defs fuel k le enc len m3 d s off1)
  end.

(* version_xlate.h:54-60 / 154-160. *)
Definition cvt_ver_fuel (fuel : nat) (k : verkind) (le enc : bool) (m : mem) (d s len : Z) : outcome mem :=
  if len =? 0 then Ok m else ver_defs fuel k le enc len (memmove m d s len) d s 0.
Definition cvt_ver (k : verkind) (le enc : bool) (m : mem) (d s len : Z) : outcome mem :=
  cvt_ver_fuel (S (Z.to_nat len)) k le enc m d s len.

(* ------------------------------------------------------------------ *)
(* libelf/gnuhash_xlate.h:36-74. *)
(* One bswap loop over n words of w bytes at offset off, stopping when fewer
   than w bytes remain; yields true when it stopped early. *)
Fixpoint gh_words (n w : nat) (tot : Z) (m : mem) (d s off : Z) : outcome (mem * bool) :=
  match n with
  | O => Ok (m, false)
  | S k =>
    if tot - off <? Z.of_nat w then Ok (m, true) else
    chk (inside tot off (Z.of_nat w))
      (gh_words k w tot (wrm m (d + off) (rev (rdm m (s + off) w))) d s (off + Z.of_nat w))
  end.

Definition cvt_gnuhash (le enc : bool) (m : mem) (d s len : Z) : outcome mem :=
  ' (m1, early) <- gh_words 4 4 len m d s 0 ;;
  if (early : bool) then Ok m1 else
  let bitmask := rd32 le m1 ((if enc then s else d) + 8) in
  (* the loop stops by itself once the data is used up, so a bound of len words
     is enough (the counter of the C loop is 32 bits, as is bitmask_words) *)
  ' (m2, early) <- gh_words (Z.to_nat (Z.min bitmask (len + 1))) 8 len m1 d s 16 ;;
  if (early : bool) then Ok m2 else
  ' (m3, _) <- gh_words (S (Z.to_nat len)) 4 len m2 d s (16 + 8 * bitmask) ;;
  Ok m3.

(* ------------------------------------------------------------------ *)
(* libelf/gelf_fsize.c:42-84, the sizes of the external types (exttypes.h). *)
Definition fsize (c64 : bool) (ty : Z) : option Z :=
  let a := if c64 then 8 else 4 in
  if ty =? ELF_T_BYTE then Some 1
  else if ty =? ELF_T_ADDR then Some a
  else if ty =? ELF_T_DYN then Some (sz_dyn c64)
  else if ty =? ELF_T_EHDR then Some (sz_ehdr c64)
  else if ty =? ELF_T_HALF then Some 2
  else if ty =? ELF_T_OFF then Some a
  else if ty =? ELF_T_PHDR then Some (sz_phdr c64)
  else if ty =? ELF_T_RELA then Some (sz_rela c64)
  else if ty =? ELF_T_REL then Some (sz_rel c64)
  else if ty =? ELF_T_SHDR then Some (sz_shdr c64)
  else if ty =? ELF_T_SWORD then Some 4
  else if ty =? ELF_T_SYM then Some (sz_sym c64)
  else if ty =? ELF_T_WORD then Some 4
  else if ty =? ELF_T_XWORD then Some 8
  else if ty =? ELF_T_SXWORD then Some 8
  else if ty =? ELF_T_VDEF then Some 20
  else if ty =? ELF_T_VDAUX then Some 8
  else if ty =? ELF_T_VNEED then Some 16
  else if ty =? ELF_T_VNAUX then Some 16
  else if ty =? ELF_T_NHDR then Some sz_nhdr
  else if ty =? ELF_T_SYMINFO then Some sz_syminfo
  else if ty =? ELF_T_MOVE then Some 28
  else if ty =? ELF_T_LIB then Some sz_lib
  else if ty =? ELF_T_GNUHASH then Some 4
  else if ty =? ELF_T_AUXV then Some (sz_auxv c64)
  else if ty =? ELF_T_CHDR then Some (sz_chdr c64)
  else if ty =? ELF_T_NHDR8 then Some sz_nhdr
  else None.

(* libelf/gelf_xlate.c:182-227, the table of conversion functions; the index
   outside the table is UB. *)
Definition xfct (c64 : bool) (ty : Z) (le enc : bool) (m : mem) (d s len : Z) : outcome mem :=
  let st sz fs := Ok (cvt_struct sz fs m d s len) in
  let aw := if c64 then 8%nat else 4%nat in
  if ty =? ELF_T_BYTE then Ok (if len =? 0 then m else memmove m d s len)
  else if ty =? ELF_T_ADDR then Ok (cvt_fund aw m d s len)
  else if ty =? ELF_T_DYN then st (sz_dyn c64) (fs_dyn c64)
  else if ty =? ELF_T_EHDR then st (sz_ehdr c64) (fs_ehdr c64)
  else if ty =? ELF_T_HALF then Ok (cvt_fund 2 m d s len)
  else if ty =? ELF_T_OFF then Ok (cvt_fund aw m d s len)
  else if ty =? ELF_T_PHDR then st (sz_phdr c64) (fs_phdr c64)
  else if ty =? ELF_T_RELA then st (sz_rela c64) (fs_rela c64)
  else if ty =? ELF_T_REL then st (sz_rel c64) (fs_rel c64)
  else if ty =? ELF_T_SHDR then st (sz_shdr c64) (fs_shdr c64)
  else if ty =? ELF_T_SWORD then Ok (cvt_fund 4 m d s len)
  else if ty =? ELF_T_SYM then st (sz_sym c64) (fs_sym c64)
  else if ty =? ELF_T_WORD then Ok (cvt_fund 4 m d s len)
  else if ty =? ELF_T_XWORD then Ok (cvt_fund 8 m d s len)
  else if ty =? ELF_T_SXWORD then Ok (cvt_fund 8 m d s len)
  else if ty =? ELF_T_VDEF then cvt_ver vk_def le enc m d s len
  else if ty =? ELF_T_VDAUX then cvt_ver vk_def le enc m d s len
  else if ty =? ELF_T_VNEED then cvt_ver vk_need le enc m d s len
  else if ty =? ELF_T_VNAUX then cvt_ver vk_need le enc m d s len
  else if ty =? ELF_T_NHDR then cvt_note le enc false m d s len
  else if ty =? ELF_T_SYMINFO then st sz_syminfo fs_syminfo
  else if ty =? ELF_T_MOVE then st (sz_move c64) (fs_move c64)
  else if ty =? ELF_T_LIB then st sz_lib fs_lib
  else if ty =? ELF_T_GNUHASH then
    (if c64 then cvt_gnuhash le enc m d s len else Ok (cvt_fund 4 m d s len))
  else if ty =? ELF_T_AUXV then st (sz_auxv c64) (fs_auxv c64)
  else if ty =? ELF_T_CHDR then Ok (cvt_chdr c64 m d s len)
  else if ty =? ELF_T_NHDR8 then cvt_note le enc true m d s len
  else UB.

Definition ELFDATA2LSB := 1.
Definition ELFDATA2MSB := 2.

(* An Elf_Data: d_buf, d_type, d_size (libelf/libelf.h:149-158). *)
Record edata := EData { d_buf : Z; d_type : Z; d_size : Z }.

(* libelf/elf32_xlatetom.c:45-120 ([tof] = false) and
   libelf/elf32_xlatetof.c:45-119 ([tof] = true).  Yields the memory and the
   updated destination descriptor. *)
Definition xlate (tof c64 le : bool) (m : mem) (dst src : edata) (encode : Z)
  : outcome (mem * edata) :=
  match fsize c64 (d_type src) with
  | None => UB
  | Some recsize =>
    if (tof || negb ((d_type src =? ELF_T_NHDR) || (d_type src =? ELF_T_NHDR8)))
       && negb (d_size src mod recsize =? 0) then Err ELF_E_INVALID_DATA
    else if d_size dst <? d_size src then Err ELF_E_DEST_SIZE
    else if negb ((encode =? ELFDATA2LSB) || (encode =? ELFDATA2MSB)) then Err ELF_E_INVALID_ENCODING
    else
      m' <- (if (if le then encode =? ELFDATA2LSB else encode =? ELFDATA2MSB)
             then Ok (if d_buf src =? d_buf dst then m
                      else memmove m (d_buf dst) (d_buf src) (d_size src))
             else xfct c64 (d_type src) le tof m (d_buf dst) (d_buf src) (d_size src)) ;;
      Ok (m', EData (d_buf dst) (d_type src) (d_size src))
  end.
