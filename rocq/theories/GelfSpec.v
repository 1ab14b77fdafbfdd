(* What gelf_getX and gelf_update_X promise, in terms of the C structures of elf.h. *)
From Coq Require Import String.
From Verif Require Import Base GelfModel.
Local Open Scope string_scope.
Local Open Scope list_scope.
Local Open Scope Z_scope.

(* the structures as declared: the members in order, with the number of bytes and whether the type is signed *)
Definition decl := list (string * (Z * bool)).
Definition m (n : string) (w : Z) : string * (Z * bool) := (n, (w, false)).
Definition sm (n : string) (w : Z) : string * (Z * bool) := (n, (w, true)).
Definition ident : decl := map (fun n => m n 1) ["i0"; "i1"; "i2"; "i3"; "i4"; "i5"; "i6"; "i7"; "i8"; "i9"; "i10"; "i11"; "i12"; "i13"; "i14"; "i15"].
Definition decl32 (k : kind) : decl :=
  match k with
  | Ksym => [m "st_name" 4; m "st_value" 4; m "st_size" 4; m "st_info" 1; m "st_other" 1; m "st_shndx" 2]
  | Kdyn => [sm "d_tag" 4; m "d_val" 4]
  | Krel => [m "r_offset" 4; m "r_info" 4]
  | Krela => [m "r_offset" 4; m "r_info" 4; sm "r_addend" 4]
  | Kauxv => [m "a_type" 4; m "a_val" 4]
  | Kversym => [m "versym" 2]
  | Ksyminfo => [m "si_boundto" 2; m "si_flags" 2]
  | Klib => [m "l_name" 4; m "l_time_stamp" 4; m "l_checksum" 4; m "l_version" 4; m "l_flags" 4]
  | Kmove => [m "m_value" 8; m "m_info" 4; m "m_poffset" 4; m "m_repeat" 2; m "m_stride" 2]
  | Kverdef => [m "vd_version" 2; m "vd_flags" 2; m "vd_ndx" 2; m "vd_cnt" 2; m "vd_hash" 4; m "vd_aux" 4; m "vd_next" 4]
  | Kverdaux => [m "vda_name" 4; m "vda_next" 4]
  | Kverneed => [m "vn_version" 2; m "vn_cnt" 2; m "vn_file" 4; m "vn_aux" 4; m "vn_next" 4]
  | Kvernaux => [m "vna_hash" 4; m "vna_flags" 2; m "vna_other" 2; m "vna_name" 4; m "vna_next" 4]
  | Kehdr => ident ++ [m "e_type" 2; m "e_machine" 2; m "e_version" 4; m "e_entry" 4; m "e_phoff" 4; m "e_shoff" 4; m "e_flags" 4; m "e_ehsize" 2; m "e_phentsize" 2; m "e_phnum" 2; m "e_shentsize" 2; m "e_shnum" 2; m "e_shstrndx" 2]
  | Kphdr => [m "p_type" 4; m "p_offset" 4; m "p_vaddr" 4; m "p_paddr" 4; m "p_filesz" 4; m "p_memsz" 4; m "p_flags" 4; m "p_align" 4]
  | Kshdr => [m "sh_name" 4; m "sh_type" 4; m "sh_flags" 4; m "sh_addr" 4; m "sh_offset" 4; m "sh_size" 4; m "sh_link" 4; m "sh_info" 4; m "sh_addralign" 4; m "sh_entsize" 4]
  end.
Definition decl64 (k : kind) : decl :=
  match k with
  | Ksym => [m "st_name" 4; m "st_info" 1; m "st_other" 1; m "st_shndx" 2; m "st_value" 8; m "st_size" 8]
  | Kdyn => [sm "d_tag" 8; m "d_val" 8]
  | Krel => [m "r_offset" 8; m "r_info" 8]
  | Krela => [m "r_offset" 8; m "r_info" 8; sm "r_addend" 8]
  | Kauxv => [m "a_type" 8; m "a_val" 8]
  | Kmove => [m "m_value" 8; m "m_info" 8; m "m_poffset" 8; m "m_repeat" 2; m "m_stride" 2]
  | Kehdr => ident ++ [m "e_type" 2; m "e_machine" 2; m "e_version" 4; m "e_entry" 8; m "e_phoff" 8; m "e_shoff" 8; m "e_flags" 4; m "e_ehsize" 2; m "e_phentsize" 2; m "e_phnum" 2; m "e_shentsize" 2; m "e_shnum" 2; m "e_shstrndx" 2]
  | Kphdr => [m "p_type" 4; m "p_flags" 4; m "p_offset" 8; m "p_vaddr" 8; m "p_paddr" 8; m "p_filesz" 8; m "p_memsz" 8; m "p_align" 8]
  | Kshdr => [m "sh_name" 4; m "sh_type" 4; m "sh_flags" 8; m "sh_addr" 8; m "sh_offset" 8; m "sh_size" 8; m "sh_link" 4; m "sh_info" 4; m "sh_addralign" 8; m "sh_entsize" 8]
  | k => decl32 k
  end.
Definition decl_of (c64 : bool) (k : kind) := if c64 then decl64 k else decl32 k.
(* where a member lies: the members before it take all the room before it *)
Fixpoint member (d : decl) (at_ : Z) (n : string) : option gfld :=
  match d with
  | [] => None
  | (n', (w, s)) :: d => if String.eqb n n' then Some (G at_ w s) else member d (at_ + w) n
  end.
Definition width (d : decl) : Z := fold_right (fun x a => fst (snd x) + a) 0 d.

(* the values of the C type of a member *)
Definition of_type (w : Z) (s : bool) (x : Z) : Prop := if s then - 2 ^ (8 * w - 1) <= x < 2 ^ (8 * w - 1) else 0 <= x < 2 ^ (8 * w).
(* a GElf record: one value of the right type for each member *)
Definition is_record (k : kind) (v : list Z) : Prop := Forall2 (fun d x => of_type (fst (snd d)) (snd (snd d)) x) (decl64 k) v.

(* the record can be represented in a file of class 32 *)
Definition fits (k : kind) (v : list Z) : Prop :=
  match k, v with
  | Ksym, [_; _; _; _; value; size] => value < 2 ^ 32 /\ size < 2 ^ 32
  | Kdyn, [tag; val] => - 2 ^ 31 <= tag < 2 ^ 31 /\ val < 2 ^ 32
  | Krel, [offset; info] => offset < 2 ^ 32 /\ info / 2 ^ 32 < 2 ^ 24 /\ info mod 2 ^ 32 < 2 ^ 8
  | Krela, [offset; info; addend] => offset < 2 ^ 32 /\ info / 2 ^ 32 < 2 ^ 24 /\ info mod 2 ^ 32 < 2 ^ 8 /\ - 2 ^ 31 <= addend < 2 ^ 31
  | Kauxv, [type; val] => type < 2 ^ 32 /\ val < 2 ^ 32
  | Kphdr, [_; _; offset; vaddr; paddr; filesz; memsz; align] => offset < 2 ^ 32 /\ vaddr < 2 ^ 32 /\ paddr < 2 ^ 32 /\ filesz < 2 ^ 32 /\ memsz < 2 ^ 32 /\ align < 2 ^ 32
  | Kshdr, [_; _; flags; addr; offset; size; _; _; addralign; entsize] => flags < 2 ^ 32 /\ addr < 2 ^ 32 /\ offset < 2 ^ 32 /\ size < 2 ^ 32 /\ addralign < 2 ^ 32 /\ entsize < 2 ^ 32
  | Kehdr, _ => forall i x, In i [19%nat; 20%nat; 21%nat] -> nth_error v i = Some x -> x < 2 ^ 32
  | _, _ => True
  end.
(* nothing but the bytes [lo, hi) differs *)
Definition only_changed (a b : bytes) (lo hi : Z) : Prop := zlen b = zlen a /\ forall i, ~ (lo <= i < hi) -> znth b i = znth a i.
(* the records which are read and stored by their number *)
Definition by_number (k : kind) : Prop := In k [Ksym; Kdyn; Krel; Krela; Kauxv; Kversym; Ksyminfo; Klib].
(* those addressed by their offset *)
Definition by_offset (k : kind) : Prop := In k [Kverdef; Kverdaux; Kverneed; Kvernaux].
(* the relocation information of class 32: symbol and type *)
Definition rinfo (sym type : Z) : Z := sym * 2 ^ 32 + type.
