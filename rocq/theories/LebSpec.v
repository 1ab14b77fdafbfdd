(* Specification of LEB128 (DWARF 4, section 7.6), independent of the code. *)
From Verif Require Import Base.

(* A complete LEB128 byte string: every byte but the last has its top bit
   set, the last has it clear. *)
Fixpoint leb_complete (b : bytes) : Prop :=
  match b with
  | [] => False
  | [x] => 0 <= x < 128
  | x :: r => 128 <= x < 256 /\ leb_complete r
  end.

(* Unsigned value: sum of the 7-bit groups, least significant first. *)
Fixpoint uleb_value (b : bytes) : Z :=
  match b with
  | [] => 0
  | x :: r => x mod 128 + 128 * uleb_value r
  end.

(* Signed value: as above, the last group is a 7-bit two's complement number. *)
Fixpoint sleb_value (b : bytes) : Z :=
  match b with
  | [] => 0
  | [x] => if x <? 64 then x else x - 128
  | x :: r => x mod 128 + 128 * sleb_value r
  end.

(* The canonical (shortest) encodings, Appendix C of the DWARF standard.
   [n] bounds the number of bytes. *)
Fixpoint uleb_encode (n : nat) (v : Z) : bytes :=
  match n with
  | O => []
  | S n' => if v / 128 =? 0 then [v mod 128]
            else (v mod 128 + 128) :: uleb_encode n' (v / 128)
  end.

Fixpoint sleb_encode (n : nat) (v : Z) : bytes :=
  match n with
  | O => []
  | S n' => if (-64 <=? v) && (v <? 64) then [v mod 128]
            else (v mod 128 + 128) :: sleb_encode n' (v / 128)
  end.

(* Bytes of which none terminates a LEB128 number. *)
Definition no_terminator (b : bytes) : Prop := Forall (fun x => 128 <= x < 256) b.

(* Value of n bytes in a byte order: fixed-width integers. *)
Inductive byte_order := little | big.
Definition int_value (o : byte_order) (b : bytes) : Z :=
  match o with little => le_value b | big => be_value b end.
