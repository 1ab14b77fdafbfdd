(* Specification of section content built with libasm: a byte string, bytes
   never written being None. *)
From Verif Require Import Base LebSpec.

Inductive aop :=
| AUleb (n : Z)            (* asm_adduleb128 *)
| ASleb (n : Z)            (* asm_addsleb128 *)
| AInt (bytes : nat) (n : Z)  (* asm_addint{8,16,32,64} *)
| AStr (s : bytes)         (* asm_addstrz with an explicit length *)
| AAlign (v : Z)           (* asm_align *)
| AFill (p : bytes).       (* asm_fill *)

(* Padding to a multiple of v at offset off: byte i of the section is
   pattern[i mod len]. *)
Definition padding (pattern : bytes) (off v : Z) : bytes :=
  map (fun i => nth (Z.to_nat ((off + Z.of_nat i) mod zlen pattern)) pattern 0)
      (seq 0 (Z.to_nat ((- off) mod v))).

(* The bytes op adds to a section of current size off with fill pattern p. *)
Definition piece (little_endian_output : bool) (p : bytes) (off : Z) (op : aop) : bytes :=
  match op with
  | AUleb n => uleb_encode 5 n
  | ASleb n => sleb_encode 5 n
  | AInt k n => if little_endian_output then le_bytes k n else be_bytes k n
  | AStr s => s
  | AAlign v => padding p off v
  | AFill _ => []
  end.

Fixpoint section_content (le : bool) (p : bytes) (acc : bytes) (ops : list aop) : bytes :=
  match ops with
  | [] => acc
  | op :: r => section_content le (match op with AFill q => q | _ => p end)
                               (acc ++ piece le p (zlen acc) op) r
  end.

Definition is_power2 (v : Z) : Prop := exists k, 0 <= k /\ v = 2 ^ k.

(* Arguments the C prototypes allow. *)
Definition aop_ok (op : aop) : Prop :=
  match op with
  | AUleb n => is_u32 n
  | ASleb n => - two31 <= n < two31
  | AInt k n => (k = 1 \/ k = 2 \/ k = 4 \/ k = 8)%nat /\
                - (256 ^ Z.of_nat k / 2) <= n < 256 ^ Z.of_nat k / 2
  | AStr s => bytes_ok s /\ 0 < zlen s < 2 ^ 32
  | AAlign v => is_power2 v /\ v < two32
  | AFill p => bytes_ok p /\ 0 < zlen p
  end.
