(* Specification of the entries of .debug_frame and .eh_frame (DWARF 4, section 6.4.1; LSB for
   .eh_frame): what bytes encode a CIE or an FDE.  Only the description of the section (record
   cfi) and the shapes of the results are shared with the model. *)
From Verif Require Import Base Slice CfiModel CfiSpec NcfiModel.

(* A CIE: version, augmentation string (without terminator), the alignment factors, the return
   address register, the augmentation data and the initial instructions. *)
Record acie := ACie { a_ver : Z; a_aug : bytes; a_caf : Z; a_daf : Z; a_ra : Z; a_data : bytes; a_ins : bytes }.

(* the size of an encoded pointer of fixed size: 2, 4, 8 bytes or an address; 255 means omitted *)
Definition fixed_size (c : cfi) (e : Z) : option Z :=
  if e =? 255 then Some 0
  else match Z.land e 7 with 0 => Some (addr_width c) | 2 => Some 2 | 3 => Some 4 | 4 => Some 8 | _ => None end.
(* The augmentation data of a string without 'z': one byte for 'L' (encoding of the LSDA pointer
   of an FDE) and for 'R' (encoding of the addresses of an FDE), an encoded pointer for 'P'
   (personality routine), nothing for 'S' (signal frame). *)
Inductive letters (c : cfi) : bytes -> bytes -> Prop :=
| L_nil : letters c [] []
| L_lsda : forall e s b, letters c s b -> letters c (76 :: s) (e :: b)
| L_addr : forall e s b, letters c s b -> letters c (82 :: s) (e :: b)
| L_pers : forall e ptr s b, fixed_size c e = Some (zlen ptr) -> letters c s b -> letters c (80 :: s) (e :: ptr ++ b)
| L_signal : forall s b, letters c s b -> letters c (83 :: s) b.
(* the size of the augmentation data each FDE then has: the LSDA pointers *)
Inductive fde_data (c : cfi) : bytes -> bytes -> Z -> Prop :=
| FD_nil : fde_data c [] [] 0
| FD_lsda : forall e w s b n, fixed_size c e = Some w -> fde_data c s b n -> fde_data c (76 :: s) (e :: b) (w + n)
| FD_addr : forall e s b n, fde_data c s b n -> fde_data c (82 :: s) (e :: b) n
| FD_pers : forall e ptr s b n, fixed_size c e = Some (zlen ptr) -> fde_data c s b n -> fde_data c (80 :: s) (e :: ptr ++ b) n
| FD_signal : forall s b n, fde_data c s b n -> fde_data c (83 :: s) b n.

(* how the augmentation data appear: behind 'z' with their size in front, else bare *)
Inductive aug_data (c : cfi) : bytes -> bytes -> bytes -> Prop :=
| AD_sized : forall s data n, uleb_of (zlen data) n -> aug_data c (122 :: s) data (n ++ data)
| AD_bare : forall s data, letters c s data -> aug_data c s data data.

(* the bytes of a CIE behind its CIE id.  An augmentation string starting with "eh" has an
   address behind it. *)
Inductive cie_bytes (c : cfi) (a : acie) : bytes -> Prop :=
| CB : forall eh tail ptr caf daf ra data,
    In (a_ver a) [1; 3; 4] ->
    a_aug a = eh ++ tail -> (eh = [] /\ ptr = [] \/ eh = [101; 104] /\ zlen ptr = addr_width c) ->
    Forall (fun x => 1 <= x < 256) tail ->
    uleb_of (a_caf a) caf -> sleb_of (a_daf a) daf ->
    (if a_ver a <? 3 then ra = [a_ra a] else uleb_of (a_ra a) ra) ->
    aug_data c tail (a_data a) data ->
    cie_bytes c a ([a_ver a] ++ a_aug a ++ [0] ++ (if a_ver a =? 4 then [addr_width c; 0] else []) ++ ptr
                   ++ caf ++ daf ++ ra ++ data ++ a_ins a).

(* An entry: a CIE, or an FDE with the offset of its CIE and its contents (addresses,
   augmentation data and instructions). *)
Inductive aentry := ACIE (a : acie) | AFDE (cie_off : Z) (contents : bytes).
(* the length fields and the offset size of the two DWARF formats *)
Definition osize (d64 : bool) : Z := if d64 then 8 else 4.
Definition length_bytes (c : cfi) (d64 : bool) (n : Z) : bytes :=
  if d64 then enc (c_fle c) 4 (two32 - 1) ++ enc (c_fle c) 8 n else enc (c_fle c) 4 n.
Definition length_ok (d64 : bool) (n : Z) : Prop := n < if d64 then two63 else two32 - 1.
(* the CIE id or CIE pointer at position p: in .eh_frame 0 for a CIE and the distance back to the
   CIE for an FDE, in .debug_frame all ones for a CIE and the offset of the CIE for an FDE *)
Definition id_of (c : cfi) (d64 : bool) (off p : Z) (x : aentry) (v : Z) : Prop :=
  match x with
  | ACIE _ => v = if c_eh c then 0 else 256 ^ osize d64 - 1
  | AFDE o _ => if c_eh c then 0 <= o < off /\ v = p - o else 0 <= o < 256 ^ osize d64 - 1 /\ v = o
  end.
Definition body_of (c : cfi) (x : aentry) (b : bytes) : Prop :=
  match x with ACIE a => cie_bytes c a b | AFDE _ contents => b = contents /\ 0 < zlen b end.
(* the bytes b at offset off of the section encode the entry *)
Definition entry_bytes (c : cfi) (off : Z) (x : aentry) (b : bytes) : Prop :=
  exists d64 v body,
    body_of c x body /\ length_ok d64 (osize d64 + zlen body) /\
    id_of c d64 off (off + (if d64 then 12 else 4)) x v /\ 0 <= v < 256 ^ osize d64 /\
    b = length_bytes c d64 (osize d64 + zlen body) ++ enc (c_fle c) (osize d64) v ++ body.

(* the result r describes the entry; last is the position behind the entry *)
Definition describes (c : cfi) (last : Z) (x : aentry) (r : entry) : Prop :=
  match x, r with
  | ACIE a, ECie i =>
      at_ (c_mem c) (i_aug i) (a_aug a ++ [0]) /\
      i_caf i = a_caf a /\ i_daf i = a_daf a /\ i_ra i = a_ra a /\
      at_ (c_mem c) (i_adata i) (a_data a) /\ i_asize i = zlen (a_data a) /\
      i_aug i + zlen (a_aug a) < i_adata i /\ i_ins i = i_adata i + zlen (a_data a) /\
      at_ (c_mem c) (i_ins i) (a_ins a) /\ i_ins i + zlen (a_ins a) = last /\ i_end i = last
  | AFDE o b, EFde o' s e => o' = o /\ at_ (c_mem c) s b /\ s + zlen b = last /\ e = last
  | _, _ => False
  end.
(* a sequence of entries, one behind the other *)
Inductive entries_bytes (c : cfi) : Z -> list (Z * aentry) -> bytes -> Prop :=
| EB_nil : forall off, entries_bytes c off [] []
| EB_cons : forall off x b l r, entry_bytes c off x b -> entries_bytes c (off + zlen b) l r ->
    entries_bytes c off ((off, x) :: l) (b ++ r).
