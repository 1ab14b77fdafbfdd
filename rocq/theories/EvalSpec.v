(* The stack machine of DWARF (DWARF 4, section 2.5.1) as it is used for call frame information
   (section 6.4): what the instructions do, and what an expression yields. *)
From Coq Require Export Sorted.
From Verif Require Import Base DwModel LocModel EvalModel.

(* What an expression can see: the value of a register if it is known, the bytes of the memory, the size of
   an address, the byte order, the distance between the addresses in the file and in the process, and the
   width of the values on the stack in bits. *)
Record env := Env { v_reg : Z -> option Z; v_byte : Z -> option Z; v_asize : Z; v_little : bool; v_bias : Z; v_width : Z }.
(* the n bytes at a are the number v *)
Definition reads (e : env) (n a v : Z) : Prop :=
  exists b : bytes, zlen b = n /\ bytes_ok b /\ (forall i, 0 <= i < n -> v_byte e (a + i) = znth b i) /\ v = fval (v_little e) b.

Inductive unary := UAbs | UNeg | UNot.
Inductive binary := BAnd | BDiv | BMinus | BMod | BMul | BOr | BPlus | BShl | BShr | BShra | BXor | BLe | BGe | BEq | BLt | BGt | BNe.
Inductive instr :=
| DConst (v : Z) | DAddr (a : Z) | DReg (r : Z) | DBreg (r n : Z)
| DDup | DDrop | DPick (n : Z) | DOver | DSwap | DRot | DDeref | DDerefSize (n : Z)
| DPlusConst (n : Z) | DUn (u : unary) | DBin (b : binary) | DBra (d : Z) | DSkip (d : Z) | DNop
| DCfa | DStackValue | DOther.

(* numbers of w bits; the same seen as signed *)
Definition wrap (w v : Z) : Z := v mod 2 ^ w.
Definition signed (w v : Z) : Z := if v <? 2 ^ (w - 1) then v else v - 2 ^ w.
Definition un (w : Z) (u : unary) (x : Z) : Z :=
  match u with UAbs => wrap w (Z.abs (signed w x)) | UNeg => wrap w (- x) | UNot => 2 ^ w - 1 - x end.
Definition truth (b : bool) : Z := if b then 1 else 0.
(* x is the second entry of the stack, y the top.  Division truncates and is signed, the remainder is
   unsigned, comparisons are signed. *)
Definition bin (w : Z) (b : binary) (x y : Z) : option Z :=
  match b with
  | BAnd => Some (Z.land x y) | BOr => Some (Z.lor x y) | BXor => Some (Z.lxor x y)
  | BPlus => Some (wrap w (x + y)) | BMinus => Some (wrap w (x - y)) | BMul => Some (wrap w (x * y))
  | BDiv => if y =? 0 then None else Some (wrap w (Z.quot (signed w x) (signed w y)))
  | BMod => if y =? 0 then None else Some (x mod y)
  | BShl => Some (wrap w (x * 2 ^ y)) | BShr => Some (x / 2 ^ y) | BShra => Some (wrap w (signed w x / 2 ^ y))
  | BLe => Some (truth (signed w x <=? signed w y)) | BGe => Some (truth (signed w y <=? signed w x))
  | BLt => Some (truth (signed w x <? signed w y)) | BGt => Some (truth (signed w y <? signed w x))
  | BEq => Some (truth (x =? y)) | BNe => Some (truth (negb (x =? y)))
  end.

(* what an instruction does to the stack, the top written first *)
Inductive does (e : env) : instr -> list Z -> list Z -> Prop :=
| does_const : forall v s, does e (DConst v) s (wrap (v_width e) v :: s)
| does_addr : forall a s, does e (DAddr a) s (wrap (v_width e) (a + v_bias e) :: s)
| does_reg : forall r v s, v_reg e r = Some v -> does e (DReg r) s (v :: s)
| does_breg : forall r n v s, v_reg e r = Some v -> does e (DBreg r n) s (wrap (v_width e) (v + n) :: s)
| does_dup : forall x s, does e DDup (x :: s) (x :: x :: s)
| does_drop : forall x s, does e DDrop (x :: s) s
| does_pick : forall n x s, znth s n = Some x -> does e (DPick n) s (x :: s)
| does_over : forall x y s, does e DOver (y :: x :: s) (x :: y :: x :: s)
| does_swap : forall x y s, does e DSwap (y :: x :: s) (x :: y :: s)
| does_rot : forall x y z s, does e DRot (z :: y :: x :: s) (y :: x :: z :: s)
| does_deref : forall a v s, reads e (v_asize e) a v -> does e DDeref (a :: s) (v :: s)
| does_deref_size : forall n a v s, 0 <= n <= v_asize e -> reads e n a v -> does e (DDerefSize n) (a :: s) (v :: s)
| does_plus_const : forall n x s, does e (DPlusConst n) (x :: s) (wrap (v_width e) (x + n) :: s)
| does_un : forall u x s, does e (DUn u) (x :: s) (un (v_width e) u x :: s)
| does_bin : forall b x y z s, bin (v_width e) b x y = Some z -> does e (DBin b) (y :: x :: s) (z :: s)
| does_nop : forall s, does e DNop s s.

(* A program: the instructions with their offsets in the expression, none for one that is not written there,
   the length of the expression, and the position where the expression ends. *)
Record prog := Prog { p_ins : list (option Z * instr); p_len : Z; p_end : Z }.
(* where a branch by d at offset o leads; behind the last instruction only if to_end *)
Definition target (to_end : bool) (p : prog) (o d k : Z) : Prop :=
  (exists i, znth (p_ins p) k = Some (Some (o + 3 + d), i)) \/ (k = p_end p /\ o + 3 + d = p_len p /\ (to_end = true \/ k < zlen (p_ins p))).
(* the instruction to be done next, the stack, and whether the result is the place of the value *)
Definition config : Type := Z * list Z * bool.
Inductive goes (to_end : bool) (e : env) (cfa : Z -> Prop) (p : prog) : config -> config -> Prop :=
| goes_on : forall k o i s s' l, znth (p_ins p) k = Some (o, i) -> does e i s s' -> goes to_end e cfa p (k, s, l) (k + 1, s', l)
| goes_past : forall k o d s l, znth (p_ins p) k = Some (Some o, DBra d) -> goes to_end e cfa p (k, 0 :: s, l) (k + 1, s, l)
| goes_bra : forall k o d k' v s l, znth (p_ins p) k = Some (Some o, DBra d) -> v <> 0 -> target to_end p o d k' -> goes to_end e cfa p (k, v :: s, l) (k', s, l)
| goes_skip : forall k o d k' s l, znth (p_ins p) k = Some (Some o, DSkip d) -> target to_end p o d k' -> goes to_end e cfa p (k, s, l) (k', s, l)
| goes_cfa : forall k o c s l, znth (p_ins p) k = Some (o, DCfa) -> cfa c -> goes to_end e cfa p (k, s, l) (k + 1, c :: s, true)
| goes_value : forall k o s l, znth (p_ins p) k = Some (o, DStackValue) -> goes to_end e cfa p (k, s, l) (k + 1, s, false).

Inductive steps {C : Type} (R : C -> C -> Prop) : nat -> C -> C -> Prop :=
| steps_none : forall c, steps R O c c
| steps_more : forall n c d f, R c d -> steps R n d f -> steps R (S n) c f.

(* w is the top of the stack at the end, or the word it points to *)
Definition outcome_is (e : env) (s : list Z) (loc : bool) (w : Z) : Prop :=
  exists v r, s = v :: r /\ if loc then reads e (v_asize e) v w else w = v.
(* The expression yields w; its CFA is any c with cfa c. *)
Definition yields (e : env) (cfa : Z -> Prop) (p : prog) (w : Z) : Prop :=
  exists n s loc, steps (goes true e cfa p) n (0, [], false) (zlen (p_ins p), s, loc) /\ outcome_is e s loc w.
Definition no_cfa : Z -> Prop := fun _ => False.

(* The same within the limits of the library: at most 4096 instructions are done, the stack never holds more
   than 256 values, no branch leads to the end of the expression, and every instruction is handled: nothing
   leaves the range of int64_t, no shift is by 64 or more, and DW_OP_deref_size has a frame, a size of at
   most 3 or the size 8 on a little-endian host, and a whole word to read. *)
Definition handled (e : env) (frame big : bool) (i : instr) (s : list Z) : Prop :=
  match i, s with
  | DUn UAbs, x :: _ | DUn UNeg, x :: _ => x <> two63
  | DBin BDiv, y :: x :: _ => ~ (x = two63 /\ y = two64 - 1)
  | DBin BShl, y :: _ | DBin BShr, y :: _ | DBin BShra, y :: _ => y < 64
  | DDerefSize n, a :: _ => frame = true /\ (big = true \/ n <= 3 \/ n = 8) /\ exists w, reads e (v_asize e) a w
  | _, _ => True
  end.
(* the C code is defined: nothing leaves int64_t, no shift is too far, and no null pointer is followed *)
Definition defined (frame big : bool) (i : instr) (s : list Z) : Prop :=
  match i, s with
  | DUn UAbs, x :: _ | DUn UNeg, x :: _ => x <> two63
  | DBin BDiv, y :: x :: _ => ~ (x = two63 /\ y = two64 - 1)
  | DBin BShl, y :: _ | DBin BShr, y :: _ | DBin BShra, y :: _ => y < 64
  | DDerefSize n, _ :: _ => frame = true /\ (big = true \/ n <= 3 \/ 8 <= n)
  | _, _ => True
  end.
Definition goes_within (e : env) (frame big : bool) (cfa : Z -> Prop) (p : prog) (c d : config) : Prop :=
  goes false e cfa p c d /\ zlen (snd (fst d)) <= 256 /\
  (forall o i, znth (p_ins p) (fst (fst c)) = Some (o, i) -> handled e frame big i (snd (fst c))).
Definition yields_within (e : env) (frame big : bool) (cfa : Z -> Prop) (p : prog) (w : Z) : Prop :=
  exists n s loc, Z.of_nat n <= 4096 /\ steps (goes_within e frame big cfa p) n (0, [], false) (zlen (p_ins p), s, loc) /\ outcome_is e s loc w.

(* The instructions the operations stand for: the opcodes of DWARF 4, section 7.7.1.  A number of the operation is
   the number of the instruction modulo 2^64. *)
Inductive means : op -> instr -> Prop :=
| m_addr : forall n m o, 0 <= n < two64 -> means (Op 3 n m o) (DAddr n)
| m_lit : forall k n m o, 0 <= k < 32 -> means (Op (48 + k) n m o) (DConst k)
| m_const : forall x v m o, In x [8; 9; 10; 11; 12; 13; 14; 15; 16; 17] -> means (Op x (v mod two64) m o) (DConst v)
| m_reg : forall r n m o, 0 <= r < 32 -> means (Op (80 + r) n m o) (DReg r)
| m_regx : forall r m o, 0 <= r < two32 -> means (Op 144 r m o) (DReg r)
| m_breg : forall r n m o, 0 <= r < 32 -> means (Op (112 + r) (n mod two64) m o) (DBreg r n)
| m_bregx : forall r n o, 0 <= r < two32 -> means (Op 146 r (n mod two64) o) (DBreg r n)
| m_dup : forall n m o, means (Op 18 n m o) DDup
| m_drop : forall n m o, means (Op 19 n m o) DDrop
| m_over : forall n m o, means (Op 20 n m o) DOver
| m_pick : forall n m o, 0 <= n -> means (Op 21 n m o) (DPick n)
| m_swap : forall n m o, means (Op 22 n m o) DSwap
| m_rot : forall n m o, means (Op 23 n m o) DRot
| m_deref : forall n m o, means (Op 6 n m o) DDeref
| m_deref_size : forall n m o, 0 <= n -> means (Op 148 n m o) (DDerefSize n)
| m_plus_uconst : forall n m o, means (Op 35 n m o) (DPlusConst n)
| m_abs : forall n m o, means (Op 25 n m o) (DUn UAbs)
| m_neg : forall n m o, means (Op 31 n m o) (DUn UNeg)
| m_not : forall n m o, means (Op 32 n m o) (DUn UNot)
| m_bin : forall x b n m o,
    In (x, b) [(26, BAnd); (27, BDiv); (28, BMinus); (29, BMod); (30, BMul); (33, BOr); (34, BPlus); (36, BShl); (37, BShr); (38, BShra);
               (39, BXor); (41, BEq); (42, BGe); (43, BGt); (44, BLe); (45, BLt); (46, BNe)] -> means (Op x n m o) (DBin b)
| m_bra : forall d m o, -32768 <= d < 32768 -> means (Op 40 (d mod two64) m o) (DBra d)
| m_skip : forall d m o, -32768 <= d < 32768 -> means (Op 47 (d mod two64) m o) (DSkip d)
| m_nop : forall n m o, means (Op 150 n m o) DNop
| m_cfa : forall n m o, means (Op 156 n m o) DCfa
| m_value : forall n m o, means (Op 159 n m o) DStackValue
(* no other instruction can be used here *)
| m_other : forall x n m o, ~ (x = 3 \/ x = 6 \/ 8 <= x <= 23 \/ 25 <= x <= 144 \/ x = 146 \/ x = 148 \/ x = 150 \/ x = 156 \/ x = 159) ->
    means (Op x n m o) DOther.

(* A list of operations stands for a program: either without branches, or as the operations of an expression of
   some length with increasing offsets, with or without the operation in front that pushes the CFA (its offset
   is -1) and the operation behind that says the result is the value (it is where the expression ends). *)
Definition branches (i : instr) : Prop := exists d, i = DBra d \/ i = DSkip d.
Inductive stands_for : list op -> prog -> Prop :=
| sf_plain : forall ops l, Forall2 (fun o x => means o (snd x) /\ ~ branches (snd x)) ops l -> stands_for ops (Prog l 0 (zlen l))
| sf_expr : forall (cf vl : bool) ops l len,
    Forall2 (fun o x => means o (snd x) /\ fst x = Some (o_off o)) ops l ->
    StronglySorted Z.lt (map o_off ops) -> Forall (fun o => 0 <= o_off o < len) ops -> len < 2 ^ 62 ->
    stands_for ((if cf then [Op 156 0 0 (two64 - 1)] else []) ++ ops ++ (if vl then [Op 159 0 0 len] else []))
      (Prog ((if cf then [(None, DCfa)] else []) ++ l ++ (if vl then [(None, DStackValue)] else [])) len (if cf then 1 + zlen l else zlen l)).

(* ---------------------------------------------------------------- what the arguments stand for *)
(* the value of a DWARF register that a frame knows *)
Definition known (b : ebl) (g : regs) (r : Z) : option Z :=
  match b_regno b r with
  | Some k => if (k <? b_nregs b) && match znth (g_set g) (k / 64) with Some w => Z.testbit w (k mod 64) | None => false end
              then znth (g_val g) k else None
  | None => None
  end.
(* a frame has room for its registers *)
Definition regs_ok (b : ebl) (g : regs) : Prop :=
  0 <= b_nregs b <= 192 /\ zlen (g_set g) = 3 /\ zlen (g_val g) = b_nregs b /\ Forall is_u64 (g_val g) /\ Forall (fun w => 0 <= w) (g_set g) /\
  (forall r k, b_regno b r = Some k -> 0 <= k).
(* The machine is as the environment says: the registers; words of 64 bits whatever the size of an address is; the
   memory callback returns the word at an address, or fails if there is none; the byte order is that of
   the host. *)
Definition fits (m : mach) (class32 : bool) (e : env) : Prop :=
  regs_ok (h_ebl m) (h_regs m) /\ (forall r, 0 <= r < two32 -> v_reg e r = known (h_ebl m) (h_regs m) r) /\
  v_width e = 64 /\ v_asize e = (if class32 then 4 else 8) /\ v_little e = negb (h_big m) /\ v_bias e = h_bias m /\
  (forall a x, v_byte e a = Some x -> is_u8 x) /\
  (forall a v, is_u64 a -> reads e (v_asize e) a v <-> exists rd, h_read m = Some rd /\ rd a = Some v).
