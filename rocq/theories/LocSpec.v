(* DWARF expressions (DWARF 5, sections 2.5, 2.6 and table 7.9, with the GNU extensions that
   preceded them), independent of the code. *)
From Verif Require Import Base LebSpec Slice CfiSpec.

(* Operands: an address, an offset in .debug_info, unsigned and signed numbers of a width,
   LEB128 numbers, a block with LEB128 length and a block with a length of one byte. *)
Inductive kind := KAddr | KRef | KU (w : Z) | KS (w : Z) | KUleb | KSleb | KBlock | KBlock1.
Definition table : list (Z * list kind) :=
  [(3, [KAddr]); (6, []); (8, [KU 1]); (9, [KS 1]); (10, [KU 2]); (11, [KS 2]); (12, [KU 4]); (13, [KS 4]); (14, [KU 8]); (15, [KS 8]);
   (16, [KUleb]); (17, [KSleb]); (18, []); (19, []); (20, []); (21, [KU 1]); (22, []); (23, []); (24, []); (25, []); (26, []); (27, []);
   (28, []); (29, []); (30, []); (31, []); (32, []); (33, []); (34, []); (35, [KUleb]); (36, []); (37, []); (38, []); (39, []);
   (40, [KS 2]); (41, []); (42, []); (43, []); (44, []); (45, []); (46, []); (47, [KS 2]);
   (144, [KUleb]); (145, [KSleb]); (146, [KUleb; KSleb]); (147, [KUleb]); (148, [KU 1]); (149, [KU 1]); (150, []); (151, []);
   (152, [KU 2]); (153, [KU 4]); (154, [KRef]); (155, []); (156, []); (157, [KUleb; KUleb]); (158, [KBlock]); (159, []);
   (160, [KRef; KSleb]); (161, [KUleb]); (162, [KUleb]); (163, [KBlock]); (164, [KUleb; KBlock1]); (165, [KUleb; KUleb]);
   (166, [KU 1; KUleb]); (167, [KU 1; KUleb]); (168, [KUleb]); (169, [KUleb]);
   (224, []); (242, [KRef; KSleb]); (243, [KBlock]); (244, [KUleb; KBlock1]); (245, [KUleb; KUleb]); (246, [KU 1; KUleb]);
   (247, [KUleb]); (249, [KUleb]); (250, [KU 4]); (251, [KUleb]); (252, [KUleb]); (253, [KRef])].
(* DW_OP_lit0 .. DW_OP_lit31, DW_OP_reg0 .. DW_OP_reg31; DW_OP_breg0 .. DW_OP_breg31 *)
Inductive signature : Z -> list kind -> Prop :=
  | S_table : forall x ks, In (x, ks) table -> signature x ks
  | S_reg : forall x, 48 <= x <= 111 -> signature x []
  | S_breg : forall x, 112 <= x <= 143 -> signature x [KSleb].

(* The sizes of an address and of an offset in .debug_info, and the byte order. *)
Record env := Env { e_le : bool; e_addr : Z; e_ref : Z }.
Inductive arg := Num (n : Z) | Blk (b : bytes).
Inductive arg_bytes (m : env) : kind -> arg -> bytes -> Prop :=
  | B_addr : forall n, 0 <= n < 256 ^ e_addr m -> arg_bytes m KAddr (Num n) (enc (e_le m) (e_addr m) n)
  | B_ref : forall n, 0 <= n < 256 ^ e_ref m -> arg_bytes m KRef (Num n) (enc (e_le m) (e_ref m) n)
  | B_u : forall w n, 0 <= n < 256 ^ w -> arg_bytes m (KU w) (Num n) (enc (e_le m) w n)
  | B_s : forall w n, - 2 ^ (8 * w - 1) <= n < 2 ^ (8 * w - 1) -> arg_bytes m (KS w) (Num n) (enc (e_le m) w (n mod 256 ^ w))
  | B_uleb : forall n b, uleb_of n b -> arg_bytes m KUleb (Num n) b
  | B_sleb : forall n b, sleb_of n b -> arg_bytes m KSleb (Num n) b
  | B_block : forall x b, uleb_of (zlen b) x -> arg_bytes m KBlock (Blk b) (x ++ b)
  | B_block1 : forall b, zlen b < 256 -> arg_bytes m KBlock1 (Blk b) (zlen b :: b).
(* An operation with its arguments, each with its bytes; an expression. *)
Inductive args_bytes (m : env) : list kind -> list (arg * bytes) -> Prop :=
  | AB_nil : args_bytes m [] []
  | AB_cons : forall k a b ks l, arg_bytes m k a b -> args_bytes m ks l -> args_bytes m (k :: ks) ((a, b) :: l).
Record operation := Operation { opcode : Z; args : list (arg * bytes) }.
Definition op_bytes (o : operation) : bytes := opcode o :: concat (map snd (args o)).
Definition op_ok (m : env) (o : operation) : Prop := exists ks, signature (opcode o) ks /\ args_bytes m ks (args o).
Definition expr_bytes (l : list operation) : bytes := concat (map op_bytes l).
(* How libdw.h presents the arguments (Dwarf_Op: number, number2): numbers modulo 2^64, blocks
   by their length and the place of the length field.  p is the place of the first argument. *)
Definition numbers (p : Z) (l : list (arg * bytes)) : Z * Z :=
  match l with
  | [(Num n, _)] => (n mod two64, 0)
  | [(Blk b, _)] => (zlen b, p)
  | [(Num n, _); (Num k, _)] => (n mod two64, k mod two64)
  | [(Num n, x); (Blk _, _)] => (n mod two64, p + zlen x)
  | _ => (0, 0)
  end.
