(* The class-independent records: the files gelf_getX.c and gelf_update_X.c of libelf.
   A record is the list of its values, in the order of the C structure GElf_X; the buffer holds records of the class of the file in the byte order of the host.
   Copying a whole structure (an assignment or memcpy) is modelled as copying all its members; no structure used here except Elf64_Move has padding.
   Locking is not modelled.  Pointers other than the data pointer are not NULL. *)
From Verif Require Import Base ElfErr.

(* a member of a structure: offset, width, signedness *)
Record gfld := G { g_off : Z; g_w : Z; g_sgn : bool }.
Definition layout := list gfld.
Definition uf (o w : Z) := G o w false.
Definition sf (o w : Z) := G o w true.

Inductive kind := Ksym | Kdyn | Krel | Krela | Kauxv | Kversym | Ksyminfo | Klib | Kmove | Kverdef | Kverdaux | Kverneed | Kvernaux | Kehdr | Kphdr | Kshdr.

(* libelf/elf.h: the structures of ELF32 (:67-101 Ehdr, :384-410 Shdr, :518-536 Sym, :541-551 Syminfo, :633-665 Rel, Rela, :678-700 Phdr, :819-837 Dyn, :998-1106 Verdef, Verdaux, Verneed, Vernaux, :1121-1140 auxv_t, :1340-1357 Move, :1971-1988 Lib) *)
Definition lay32 (k : kind) : layout :=
  match k with
  | Ksym => [uf 0 4; uf 12 1; uf 13 1; uf 14 2; uf 4 4; uf 8 4]
  | Kdyn => [sf 0 4; uf 4 4]
  | Krel => [uf 0 4; uf 4 4]
  | Krela => [uf 0 4; uf 4 4; sf 8 4]
  | Kauxv => [uf 0 4; uf 4 4]
  | Kversym => [uf 0 2]
  | Ksyminfo => [uf 0 2; uf 2 2]
  | Klib => [uf 0 4; uf 4 4; uf 8 4; uf 12 4; uf 16 4]
  | Kmove => [uf 0 8; uf 8 4; uf 12 4; uf 16 2; uf 18 2]
  | Kverdef => [uf 0 2; uf 2 2; uf 4 2; uf 6 2; uf 8 4; uf 12 4; uf 16 4]
  | Kverdaux => [uf 0 4; uf 4 4]
  | Kverneed => [uf 0 2; uf 2 2; uf 4 4; uf 8 4; uf 12 4]
  | Kvernaux => [uf 0 4; uf 4 2; uf 6 2; uf 8 4; uf 12 4]
  | Kehdr => map (fun i => uf i 1) [0; 1; 2; 3; 4; 5; 6; 7; 8; 9; 10; 11; 12; 13; 14; 15] ++ [uf 16 2; uf 18 2; uf 20 4; uf 24 4; uf 28 4; uf 32 4; uf 36 4; uf 40 2; uf 42 2; uf 44 2; uf 46 2; uf 48 2; uf 50 2]
  | Kphdr => [uf 0 4; uf 24 4; uf 4 4; uf 8 4; uf 12 4; uf 16 4; uf 20 4; uf 28 4]
  | Kshdr => [uf 0 4; uf 4 4; uf 8 4; uf 12 4; uf 16 4; uf 20 4; uf 24 4; uf 28 4; uf 32 4; uf 36 4]
  end.
(* the structures of ELF64, which are those of GElf *)
Definition lay64 (k : kind) : layout :=
  match k with
  | Ksym => [uf 0 4; uf 4 1; uf 5 1; uf 6 2; uf 8 8; uf 16 8]
  | Kdyn => [sf 0 8; uf 8 8]
  | Krel => [uf 0 8; uf 8 8]
  | Krela => [uf 0 8; uf 8 8; sf 16 8]
  | Kauxv => [uf 0 8; uf 8 8]
  | Kmove => [uf 0 8; uf 8 8; uf 16 8; uf 24 2; uf 26 2]
  | Kehdr => map (fun i => uf i 1) [0; 1; 2; 3; 4; 5; 6; 7; 8; 9; 10; 11; 12; 13; 14; 15] ++ [uf 16 2; uf 18 2; uf 20 4; uf 24 8; uf 32 8; uf 40 8; uf 48 4; uf 52 2; uf 54 2; uf 56 2; uf 58 2; uf 60 2; uf 62 2]
  | Kphdr => [uf 0 4; uf 4 4; uf 8 8; uf 16 8; uf 24 8; uf 32 8; uf 40 8; uf 48 8]
  | Kshdr => [uf 0 4; uf 4 4; uf 8 8; uf 16 8; uf 24 8; uf 32 8; uf 40 4; uf 44 4; uf 48 8; uf 56 8]
  | k => lay32 k
  end.
Definition size32 (k : kind) : Z := match k with Ksym => 16 | Kdyn | Krel | Kauxv | Kverdaux => 8 | Krela => 12 | Kversym => 2 | Ksyminfo => 4 | Klib | Kverdef => 20 | Kmove => 24 | Kverneed | Kvernaux => 16 | Kehdr => 52 | Kphdr => 32 | Kshdr => 40 end.
Definition size64 (k : kind) : Z := match k with Ksym | Krela => 24 | Kdyn | Krel | Kauxv => 16 | Kmove => 32 | Kehdr => 64 | Kphdr => 56 | Kshdr => 64 | k => size32 k end.
Definition lay (c64 : bool) (k : kind) := if c64 then lay64 k else lay32 k.
Definition size (c64 : bool) (k : kind) := if c64 then size64 k else size32 k.
(* libelf/libelf.h Elf_Type *)
Definition ktype (k : kind) : Z := match k with Ksym => 11 | Kdyn => 2 | Krel => 8 | Krela => 7 | Kauxv => 24 | Kversym => 4 | Ksyminfo => 20 | Klib => 22 | Kmove => 21 | Kverdef | Kverdaux => 15 | Kverneed | Kvernaux => 17 | Kehdr => 3 | Kphdr => 6 | Kshdr => 9 end.

(* access to memory *)
Definition enc (le : bool) (w v : Z) : bytes := if le then le_bytes (Z.to_nat w) v else be_bytes (Z.to_nat w) v.
Definition dec (le : bool) (b : bytes) : Z := if le then le_value b else be_value b.
Definition sgn (w x : Z) : Z := if x <? 2 ^ (8 * w - 1) then x else x - 2 ^ (8 * w).
Definition bput (buf : bytes) (o : Z) (b : bytes) : bytes := zsub buf 0 o ++ b ++ zsub buf (o + zlen b) (zlen buf - o - zlen b).
Definition rd_fld (le : bool) (buf : bytes) (base : Z) (f : gfld) : Z := let x := dec le (zsub buf (base + g_off f) (g_w f)) in if g_sgn f then sgn (g_w f) x else x.
Definition wr_fld (le : bool) (buf : bytes) (base : Z) (f : gfld) (v : Z) : bytes := bput buf (base + g_off f) (enc le (g_w f) v).
Definition rd_rec (le : bool) (l : layout) (buf : bytes) (base : Z) : list Z := map (rd_fld le buf base) l.
Fixpoint wr_rec (le : bool) (l : layout) (buf : bytes) (base : Z) (vs : list Z) : bytes :=
  match l, vs with f :: l, v :: vs => wr_rec le l (wr_fld le buf base f v) base vs | _, _ => buf end.

(* gelf_getrel.c, gelf_getrela.c: GELF_R_INFO (ELF32_R_SYM (i), ELF32_R_TYPE (i)); every other member is copied *)
Definition info64 (i : Z) : Z := u64 (i / 256 * 2 ^ 32 + i mod 256).
(* gelf_update_rel.c, gelf_update_rela.c: ELF32_R_INFO (GELF_R_SYM (i), GELF_R_TYPE (i)) *)
Definition info32 (i : Z) : Z := u32 (i / 2 ^ 32 * 256 + (i mod 2 ^ 32) mod 256).
Definition widen (k : kind) (v : list Z) : list Z := match k, v with Krel, [o; i] => [o; info64 i] | Krela, [o; i; a] => [o; info64 i; a] | _, _ => v end.
Definition narrow (k : kind) (v : list Z) : list Z := match k, v with Krel, [o; i] => [o; info32 i] | Krela, [o; i; a] => [o; info32 i; a] | _, _ => v end.
(* the tests "too large" of the update functions *)
Definition big (x : Z) : bool := 4294967295 <? x.
Definition sbig (x : Z) : bool := (x <? -2147483648) || (2147483647 <? x).
Definition ibig (i : Z) : bool := (16777215 <? i / 2 ^ 32) || (255 <? i mod 2 ^ 32).
Definition too_large (k : kind) (v : list Z) : bool :=
  match k, v with
  | Ksym, [_; _; _; _; value; sz] => big value || big sz                                    (* gelf_update_sym.c:67-72, gelf_update_symshndx.c:92-97 *)
  | Kdyn, [tag; val] => sbig tag || big val                                                  (* gelf_update_dyn.c:66-72 *)
  | Krel, [o; i] => big o || ibig i                                                          (* gelf_update_rel.c:66-72 *)
  | Krela, [o; i; a] => big o || ibig i || sbig a                                            (* gelf_update_rela.c:66-74 *)
  | Kauxv, [t; x] => big t || big x                                                          (* gelf_update_auxv.c:71-76 *)
  | Kphdr, [_; _; off; va; pa; fs; ms; al] => big off || big va || big pa || big fs || big ms || big al   (* gelf_update_phdr.c:63-72 *)
  | Kshdr, [_; _; fl; ad; off; sz; _; _; al; es] => big fl || big ad || big off || big sz || big al || big es (* gelf_update_shdr.c:63-72 *)
  | Kehdr, _ => match nth_error v 19, nth_error v 20, nth_error v 21 with Some e, Some p, Some s => big e || big p || big s | _, _, _ => false end   (* gelf_update_ehdr.c:69-75 *)
  | _, _ => false
  end.

(* reading and writing the record at an offset; outside the buffer: undefined *)
Definition get_at (le c64 : bool) (k : kind) (buf : bytes) (base : Z) : outcome (list Z) :=
  if (0 <=? base) && (base + size c64 k <=? zlen buf) then
    let v := rd_rec le (lay c64 k) buf base in Ok (if c64 then v else widen k v)
  else UB.
Definition put_at (le c64 : bool) (k : kind) (buf : bytes) (base : Z) (v : list Z) : outcome bytes :=
  if (0 <=? base) && (base + size c64 k <=? zlen buf) then Ok (wr_rec le (lay c64 k) buf base (if c64 then v else narrow k v)) else UB.

(* what an update function leaves behind: what it returns, the buffer, whether the section is marked as changed *)
Record ures := U { r_ret : outcome unit; r_buf : bytes; r_dirty : bool }.
Definition refuse (e : Z) (buf : bytes) (d : bool) : ures := U (Err e) buf d.
Definition store_at (le c64 : bool) (k : kind) (buf : bytes) (base : Z) (v : list Z) : ures :=
  match put_at le c64 k buf base v with Ok b => U (Ok tt) b true | _ => U UB buf true end.

(* libelf/libelfP.h:637 INVALID_NDX *)
Definition invalid_ndx (ndx sz dsize : Z) : bool := dsize / sz <=? u32 ndx.
(* gelf_getauxv.c:71, :91: (ndx + 1) * sizeof > d_size; the sum is an int, the product a size_t *)
Definition invalid_auxv (ndx sz dsize : Z) : bool := dsize <? u64 ((ndx + 1) * sz).

(* gelf_getsym.c, gelf_getdyn.c, gelf_getrel.c, gelf_getrela.c, gelf_getversym.c, gelf_getsyminfo.c, gelf_getlib.c: data of type [ty] of a file of class 64 or 32; ndx is an int *)
Definition gelf_get (le c64 : bool) (k : kind) (ty : Z) (buf : bytes) (ndx : Z) : outcome (list Z) :=
  if negb (ty =? ktype k) then Err ELF_E_INVALID_HANDLE
  else match k with
  | Kmove => UB    (* gelf_getmove.c:57: assert (sizeof (GElf_Move) == sizeof (Elf32_Move)) *)
  | Kauxv => if ndx =? 2147483647 then UB else if invalid_auxv ndx (size c64 k) (zlen buf) then Err ELF_E_INVALID_INDEX else get_at le c64 k buf (ndx * size c64 k)
  | _ => if invalid_ndx ndx (size c64 k) (zlen buf) then Err ELF_E_INVALID_INDEX else get_at le c64 k buf (ndx * size c64 k)
  end.
(* gelf_update_sym.c, gelf_update_dyn.c, gelf_update_rel.c, gelf_update_rela.c, gelf_update_auxv.c, gelf_update_versym.c, gelf_update_syminfo.c, gelf_update_lib.c, gelf_update_move.c *)
Definition gelf_update (le c64 : bool) (k : kind) (ty : Z) (buf : bytes) (d : bool) (ndx : Z) (v : list Z) : ures :=
  match k with
  | Kmove => U UB buf d      (* gelf_update_move.c:50 *)
  | Kversym => if invalid_ndx ndx (size c64 k) (zlen buf) then refuse ELF_E_INVALID_INDEX buf d else if negb (ty =? ktype k) then refuse ELF_E_DATA_MISMATCH buf d else store_at le c64 k buf (ndx * size c64 k) v
  | _ =>
    if match k with Kauxv => ndx <? 0 | _ => false end then refuse ELF_E_INVALID_INDEX buf d
    else if negb (ty =? ktype k) then refuse ELF_E_DATA_MISMATCH buf d
    else if negb c64 && too_large k v then refuse ELF_E_INVALID_DATA buf d
    else if match k with Kauxv => ndx =? 2147483647 | _ => false end then U UB buf d
    else if match k with Kauxv => invalid_auxv ndx (size c64 k) (zlen buf) | _ => invalid_ndx ndx (size c64 k) (zlen buf) end then refuse ELF_E_INVALID_INDEX buf d
    else store_at le c64 k buf (ndx * size c64 k) v
  end.

(* gelf_getverdef.c, gelf_getverdaux.c: a multiple of the alignment; gelf_getverneed.c, gelf_getvernaux.c: a multiple of the size *)
Definition ver_step (k : kind) : Z := match k with Kverneed | Kvernaux => 16 | _ => 4 end.
(* offset is an int, the sum a size_t *)
Definition gelf_getver (le : bool) (k : kind) (ty : Z) (buf : bytes) (off : Z) : outcome (list Z) :=
  if negb (ty =? ktype k) then Err ELF_E_INVALID_HANDLE
  else if (off <? 0) || (zlen buf <? off + size32 k) || negb (off mod ver_step k =? 0) then Err ELF_E_OFFSET_RANGE
  else get_at le true k buf off.
(* gelf_update_verdef.c, gelf_update_verdaux.c, gelf_update_verneed.c, gelf_update_vernaux.c *)
Definition gelf_updatever (le : bool) (k : kind) (ty : Z) (buf : bytes) (d : bool) (off : Z) (v : list Z) : ures :=
  if (off <? 0) || (zlen buf <? off + size32 k) then refuse ELF_E_INVALID_INDEX buf d
  else if negb (ty =? ktype k) then refuse ELF_E_DATA_MISMATCH buf d
  else store_at le true k buf off v.

(* gelf_getsymshndx.c:42-118 with the table of section indices *)
Definition gelf_getsymshndx (le c64 : bool) (ty : Z) (buf : bytes) (x : option (Z * bytes)) (ndx : Z) : outcome (list Z * Z) :=
  if negb (ty =? 11) || match x with Some (tx, _) => negb (tx =? 12) | None => false end then Err ELF_E_INVALID_HANDLE
  else
    sh <- match x with
          | Some (_, xb) => if invalid_ndx ndx 4 (zlen xb) then Err ELF_E_INVALID_INDEX else if (0 <=? ndx) && (4 * ndx + 4 <=? zlen xb) then Ok (dec le (zsub xb (4 * ndx) 4)) else UB
          | None => Ok 0
          end ;;
    v <- gelf_get le c64 Ksym ty buf ndx ;; Ok (v, sh).
(* gelf_update_symshndx.c:42-140; the type of the table is not looked at *)
Definition gelf_updatesymshndx (le c64 : bool) (ty : Z) (buf : bytes) (d : bool) (x : option bytes) (ndx : Z) (v : list Z) (sh : Z) : ures * option bytes :=
  if negb (ty =? 11) then (refuse ELF_E_DATA_MISMATCH buf d, x)
  else if ndx =? 2147483647 then (U UB buf d, x)
  else if match x with Some xb => zlen xb <? u64 ((ndx + 1) * 4) | None => negb (sh =? 0) end then (refuse ELF_E_INVALID_INDEX buf d, x)
  else let r := gelf_update le c64 Ksym ty buf d ndx v in
       match r_ret r, x with
       | Ok _, Some xb => if (0 <=? ndx) && (4 * ndx + 4 <=? zlen xb) then (r, Some (bput xb (4 * ndx) (enc le 4 sh))) else (U UB (r_buf r) (r_dirty r), x)
       | _, _ => (r, x)
       end.

(* gelf_getehdr.c:41-92, gelf_getshdr.c:41-100: the header in memory (None: there is none) *)
Definition gelf_gethdr (le c64 : bool) (k : kind) (h : option bytes) : outcome (list Z) :=
  match h with None => Err (match k with Kehdr => ELF_E_WRONG_ORDER_EHDR | _ => ELF_E_INVALID_OPERAND end) | Some b => get_at le c64 k b 0 end.
(* gelf_update_ehdr.c:41-125, gelf_update_shdr.c:41-120 *)
Definition gelf_updatehdr (le c64 : bool) (k : kind) (h : option bytes) (d : bool) (v : list Z) : ures :=
  match h with
  | None => refuse (match k with Kehdr => ELF_E_WRONG_ORDER_EHDR | _ => ELF_E_INVALID_OPERAND end) [] d
  | Some b => if negb c64 && too_large k v then refuse ELF_E_INVALID_DATA b d else store_at le c64 k b 0 v
  end.
(* gelf_getphdr.c:41-123: the program headers in memory; [phnum] is what elf_getphdrnum gives *)
Definition gelf_getphdr (le c64 : bool) (tab : bytes) (phnum ndx : Z) : outcome (list Z) :=
  if phnum <=? u64 ndx then Err ELF_E_INVALID_INDEX else get_at le c64 Kphdr tab (ndx * size c64 Kphdr).
(* gelf_update_phdr.c:41-150: e_phnum is a 16-bit number, 65535 (PN_XNUM) if the number is elsewhere; ndx is compared as an int *)
Definition gelf_updatephdr (le c64 : bool) (tab : bytes) (d : bool) (e_phnum phnum ndx : Z) (v : list Z) : ures :=
  if negb c64 && too_large Kphdr v then refuse ELF_E_INVALID_DATA tab d
  else if (e_phnum <=? ndx) && (negb (e_phnum =? 65535) || (phnum <=? u64 ndx)) then refuse ELF_E_INVALID_INDEX tab d
  else store_at le c64 Kphdr tab (ndx * size c64 Kphdr) v.
