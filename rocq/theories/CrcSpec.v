(* The cyclic redundancy check by its definition, bit by bit. *)
From Verif Require Import Base CrcModel.

(* the polynomial of CRC-32, reflected *)
Definition POLY : Z := 0xedb88320.
(* one step of the division *)
Definition divide (x : Z) : Z := Z.lxor (Z.shiftr x 1) (if Z.odd x then POLY else 0).
(* the n low bits of b enter the register, lowest first *)
Fixpoint enter (n : nat) (b c : Z) : Z := match n with O => c | S n => enter n (Z.shiftr b 1) (divide (Z.lxor c (Z.b2z (Z.odd b)))) end.
(* the register starts with ones and is complemented at the end *)
Definition crc_of (m : bytes) : Z := not32 (fold_left (fun c b => enter 8 b c) m (not32 0)).
(* what the system may answer to the reads: something of what is there, 0 at the end, or an error *)
Definition reads_ok (file : bytes) (count : Z -> Z) : Prop :=
  forall off, 0 <= off <= zlen file -> count off < 0 \/ (0 < count off <= zlen file - off) \/ (count off = 0 /\ off = zlen file).
