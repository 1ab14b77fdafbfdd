(* Attribute values of DWARF 2 to 5 (sections 7.5.3-7.5.6), independent of the code. *)
From Verif Require Import Base LebSpec Slice CfiSpec.

Inductive value :=
  | Unsigned (n : Z)          (* constants, offsets, references, indices, addresses *)
  | Signed (n : Z)
  | Bytes (b : bytes)         (* blocks *)
  | Text (s : bytes)          (* inline strings, without the terminating zero *)
  | Present.                  (* flag without a value *)

(* the parameters of a unit: byte order, size of an address, size of an offset, version *)
Record params := Params { p_le : bool; p_addr : Z; p_off : Z; p_version : Z }.

(* Form codes by the kind of their values: the forms with values of a fixed width. *)
Definition fixed_width (m : params) : list (Z * Z) :=
  [(1, p_addr m);                                                          (* addr *)
   (11, 1); (12, 1); (17, 1); (37, 1); (41, 1);                            (* data1 flag ref1 strx1 addrx1 *)
   (5, 2); (18, 2); (38, 2); (42, 2);                                      (* data2 ref2 strx2 addrx2 *)
   (39, 3); (43, 3);                                                       (* strx3 addrx3 *)
   (6, 4); (19, 4); (28, 4); (40, 4); (44, 4);                             (* data4 ref4 ref_sup4 strx4 addrx4 *)
   (7, 8); (20, 8); (32, 8); (36, 8);                                      (* data8 ref8 ref_sig8 ref_sup8 *)
   (16, if p_version m =? 2 then p_addr m else p_off m);                   (* ref_addr *)
   (14, p_off m); (29, p_off m); (31, p_off m); (23, p_off m);             (* strp strp_sup line_strp sec_offset *)
   (7968, p_off m); (7969, p_off m)].                                      (* GNU_ref_alt GNU_strp_alt *)
Definition is_uleb (form : Z) : Prop :=                   (* udata ref_udata addrx loclistx rnglistx strx GNU_addr_index GNU_str_index *)
  In form [15; 21; 27; 34; 35; 26; 7937; 7938].

(* b are the bytes of a value of the given form. *)
Inductive holds (m : params) : Z -> value -> bytes -> Prop :=
  | H_fixed : forall form w n, In (form, w) (fixed_width m) -> 0 <= n < 256 ^ w -> holds m form (Unsigned n) (enc (p_le m) w n)
  | H_data16 : forall b, zlen b = 16 -> holds m 30 (Bytes b) b
  | H_uleb : forall form n b, is_uleb form -> uleb_of n b -> holds m form (Unsigned n) b
  | H_sdata : forall n b, sleb_of n b -> holds m 13 (Signed n) b
  | H_present : holds m 25 Present []
  | H_implicit : holds m 33 Present []                    (* the value is in the abbreviation *)
  | H_block1 : forall b, zlen b < 256 -> holds m 10 (Bytes b) (enc (p_le m) 1 (zlen b) ++ b)
  | H_block2 : forall b, zlen b < 65536 -> holds m 3 (Bytes b) (enc (p_le m) 2 (zlen b) ++ b)
  | H_block4 : forall b, zlen b < two32 -> holds m 4 (Bytes b) (enc (p_le m) 4 (zlen b) ++ b)
  | H_block : forall form b x, form = 9 \/ form = 24 -> uleb_of (zlen b) x -> holds m form (Bytes b) (x ++ b)
  | H_string : forall s, Forall (fun c => c <> 0) s -> holds m 8 (Text s) (s ++ [0])
  | H_indirect : forall form v x b, uleb_of form x -> form < two32 -> form <> 33 -> holds m form v b -> holds m 22 v (x ++ b).
