(* libelf/gelf_getnote.c.

   Simplifications: the data is a memory and its size d_size; locks are left out;
   the header is read field by field in host byte order.  Offsets are size_t. *)
From Verif Require Import Base ElfErr XlateModel.

Record gnhdr := Nhdr { nh_namesz : Z; nh_descsz : Z; nh_type : Z }.
(* What a call leaves: the return value, the error number if one is set, and the
   three result variables (None: not written). *)
Record getnote_out := GN {
  gn_ret : Z; gn_errno : option Z;
  gn_result : option gnhdr; gn_name : option Z; gn_desc : option Z }.

(* gelf_getnote.c:73 with a size of the GElf_Word type: 32-bit arithmetic
   (libelfP.h:631,634). *)
Definition NOTE_ALIGN32 (nhdr8 : bool) (n : Z) : Z :=
  if nhdr8 then Z.land (u32 (n + 7)) (two32 - 8) else Z.land (u32 (n + 3)) (two32 - 4).

(* gelf_getnote.c:39-115; ty is data->d_type, None the NULL pointer *)
Definition gelf_getnote (le : bool) (ty : option Z) (m : mem) (size off : Z) : outcome getnote_out :=
  match ty with
  | None => Ok (GN 0 None None None None)
  | Some ty =>
    if negb (ty =? ELF_T_NHDR) && negb (ty =? ELF_T_NHDR8)
    then Ok (GN 0 (Some ELF_E_INVALID_HANDLE) None None None)
    else if (size <? off) || (size - off <? 12)
    then Ok (GN 0 (Some ELF_E_OFFSET_RANGE) None None None)
    else
      let n := off in                                  (* the header at d_buf + offset *)
      let off := u64 (off + 12) in
      if size <? off then Ok (GN 0 None None None None)
      else
        let name := off in
        chk (inside size n 4) (
        let namesz := rd32 le m n in
        let off := u64 (off + namesz) in
        if size <? off then Ok (GN 0 None None (Some name) None)
        else chk (inside size (n + 4) 4) (
          let ds := rd32 le m (n + 4) in
          let h8 := ty =? ELF_T_NHDR8 in
          let descsz := NOTE_ALIGN32 h8 ds in
          let off := NOTE_ALIGN h8 off in
          if (size <? off) || (size - off <? descsz) || ((descsz =? 0) && negb (ds =? 0))
          then Ok (GN 0 None None (Some name) None)
          else chk (inside size (n + 8) 4)
            (Ok (GN (u64 (off + descsz)) None (Some (Nhdr namesz ds (rd32 le m (n + 8)))) (Some name) (Some off)))))
  end.

(* The way callers iterate (e.g. src/readelf.c:12190, libdwelf/dwelf_elf_gnu_build_id.c:47): from offset 0 while the
   result is not zero. *)
Fixpoint iterate (fuel : nat) (le : bool) (ty : Z) (m : mem) (size off : Z) : outcome (list (gnhdr * Z * Z)) :=
  match fuel with
  | O => Fuel
  | S fuel =>
    r <- gelf_getnote le (Some ty) m size off ;;
    if gn_ret r =? 0 then Ok []
    else match gn_result r, gn_name r, gn_desc r with
         | Some h, Some n, Some d =>
           l <- iterate fuel le ty m size (gn_ret r) ;; Ok ((h, n, d) :: l)
         | _, _, _ => UB      (* the caller would use variables not set *)
         end
  end.
