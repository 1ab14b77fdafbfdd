(* Specifications of the hash functions and of CRC-32, independent of the
   code. *)
From Verif Require Import Base.

(* The characters of a C string: no NUL, each an unsigned char. *)
Definition cstring (s : bytes) : Prop := Forall (fun c => 0 < c < 256) s.

(* System V ABI (gABI, chapter 5, "Hash Table"), figure 5-13, with 32-bit
   arithmetic:
     h = (h << 4) + *name++;  if (g = h & 0xf0000000) h ^= g >> 24;  h &= ~g; *)
Definition abi_hash_char (h c : Z) : Z :=
  let h := (h * 16 + c) mod 2 ^ 32 in
  let g := Z.land h 4026531840 in
  let h := if g =? 0 then h else Z.lxor h (Z.shiftr g 24) in
  Z.ldiff h g.
Definition abi_hash (s : bytes) : Z := fold_left abi_hash_char s 0.

(* The GNU hash as a number: 5381*33^n + sum of c_i * 33^(n-1-i). *)
Fixpoint gnu_sum (s : bytes) : Z :=
  match s with
  | [] => 0
  | c :: r => c * 33 ^ zlen r + gnu_sum r
  end.
Definition gnu_hash_number (s : bytes) : Z := 5381 * 33 ^ zlen s + gnu_sum s.

(* CRC-32 as the bit-serial shift register of IEEE 802.3 in reflected form:
   message bits enter least significant bit of each byte first; polynomial
   0xEDB88320; register starts at and is finally xored with 0xffffffff. *)
Definition crc_poly : Z := 3988292384.
Definition crc_bit (reg : Z) (bit : bool) : Z :=
  Z.lxor (reg / 2) (if xorb (Z.odd reg) bit then crc_poly else 0).
Definition byte_bits (b : Z) : list bool :=
  map (Z.testbit b) [0; 1; 2; 3; 4; 5; 6; 7].
Definition message_bits (buf : bytes) : list bool := flat_map byte_bits buf.
Definition crc_register (reg : Z) (buf : bytes) : Z :=
  fold_left crc_bit (message_bits buf) reg.
Definition ieee_crc32 (buf : bytes) : Z :=
  Z.lxor (crc_register 4294967295 buf) 4294967295.
