(* What unwinding one frame means (DWARF 4, section 6.4): the CFA and the registers of the caller from the
   rules of a row.  The expressions are those of EvalSpec, written in bytes as LocSpec says. *)
From Verif Require Import Base DwModel Slice CfiModel CfiSpec LocModel EvalModel EvalSpec.
From Verif Require LocSpec.

(* The operations of an expression, the first at offset o, as instructions with their offsets. *)
Inductive program : Z -> list LocSpec.operation -> list (option Z * instr) -> Prop :=
| pr_nil : forall o, program o [] []
| pr_cons : forall o x l i r,
    means (Op (LocSpec.opcode x) (fst (LocSpec.numbers (o + 1) (LocSpec.args x))) (snd (LocSpec.numbers (o + 1) (LocSpec.args x))) o) i ->
    program (o + zlen (LocSpec.op_bytes x)) l r -> program o (x :: l) ((Some o, i) :: r).
(* Operations that are not allowed in call frame information, because they need .debug_info (6.4.2). *)
Definition needs_info (x : Z) : Prop := In x [152; 153; 250; 154; 253; 160; 242; 158; 163; 243].
(* The bytes b are an expression with the instructions l. *)
Definition expression (c : cfi) (b : bytes) (l : list (option Z * instr)) : Prop :=
  exists xs, xs <> [] /\ Forall (LocSpec.op_ok (LocSpec.Env (c_fle c) (addr_width c) 4)) xs /\
    Forall (fun x => ~ needs_info (LocSpec.opcode x)) xs /\ b = LocSpec.expr_bytes xs /\ program 0 xs l.

(* An expression for the CFA; an expression for a register, which starts with the CFA on the stack and yields
   the place of the register, or its value. *)
Definition cfa_program (b : bytes) (l : list (option Z * instr)) : prog := Prog l (zlen b) (zlen l).
Definition reg_program (b : bytes) (value : bool) (l : list (option Z * instr)) : prog :=
  Prog ((None, DCfa) :: l ++ if value then [(None, DStackValue)] else []) (zlen b) (1 + zlen l).

(* The CFA by its rule; Y p v says that the program p yields v. *)
Definition cfa_is (Y : prog -> Z -> Prop) (c : cfi) (e : env) (t : scfa) (v : Z) : Prop :=
  match t with
  | RegOff r n => exists x, v_reg e r = Some x /\ v = (x + n) mod two64
  | CfaExpression b => exists l, expression c b l /\ Y (cfa_program b l) v
  | NoCfa | BadCfa => False
  end.
(* The value of register n in the caller by its rule; same says whether a register without rule keeps its
   value. *)
Definition caller (Y : prog -> Z -> Prop) (c : cfi) (e : env) (same : bool) (cfa : Z -> Prop) (n : Z) (r : srule) (v : Z) : Prop :=
  match r with
  | Unspecified => same = true /\ v_reg e n = Some v
  | Undefined => False
  | SameValue => v_reg e n = Some v
  | Offset k => exists x, cfa x /\ reads e (v_asize e) ((x + k) mod two64) v
  | ValOffset k => exists x, cfa x /\ v = (x + k) mod two64
  | Register r => v_reg e r = Some v
  | Expression b => exists l, expression c b l /\ Y (reg_program b false l) v
  | ValExpression b => exists l, expression c b l /\ Y (reg_program b true l) v
  end.
(* with the stack machine *)
Definition cfa_of (c : cfi) (e : env) (t : rules) : Z -> Prop := cfa_is (yields e no_cfa) c e (t_cfa t).
Definition caller_has (c : cfi) (e : env) (same : bool) (t : rules) (n v : Z) : Prop :=
  caller (yields e (cfa_of c e t)) c e same (cfa_of c e t) n (t_reg t n) v.
(* with the limits of the library (EvalSpec) *)
Definition cfa_within (big : bool) (c : cfi) (e : env) (t : rules) : Z -> Prop := cfa_is (yields_within e false big no_cfa) c e (t_cfa t).
Definition caller_within (big : bool) (c : cfi) (e : env) (same : bool) (t : rules) (n v : Z) : Prop :=
  caller (yields_within e true big (cfa_within big c e t)) c e same (cfa_within big c e t) n (t_reg t n) v.

(* The rules are plain: the expressions are ones (not empty), and registers have numbers below 2^32. *)
Definition plain_cfa (c : cfi) (t : scfa) : Prop :=
  match t with RegOff r _ => 0 <= r < two32 | CfaExpression b => exists l, expression c b l | _ => True end.
Definition plain_rule (c : cfi) (r : srule) : Prop :=
  match r with Register k => 0 <= k < two32 | Expression b | ValExpression b => exists l, expression c b l | _ => True end.
Definition plain_rules (c : cfi) (t : rules) : Prop := plain_cfa c (t_cfa t) /\ forall n, plain_rule c (t_reg t n).

(* what a frame keeps of the value v of register n: the bits of an address if n is the return address
   register ra, and 32 bits in a process of class 32 *)
Definition kept (b : ebl) (ra n v : Z) : Z :=
  let v := if n =? ra then Z.land v (b_mask b) else v in if b_class32 b then v mod two32 else v.
(* no other DWARF number below the number of registers stands for the same register of the backend *)
Definition alone (b : ebl) (n : Z) : Prop := forall k, 0 <= k < b_nregs b -> b_regno b k = b_regno b n -> k = n.

(* The expressions of the rules are defined in C (EvalSpec) wherever they come to. *)
Definition expr_defined (e : env) (frame big : bool) (cfa : Z -> Prop) (p : prog) : Prop :=
  forall n k s l x i, steps (goes true e cfa p) n (0, [], false) (k, s, l) -> znth (p_ins p) k = Some (x, i) -> defined frame big i s.
Definition rules_defined (big : bool) (c : cfi) (e : env) (t : rules) : Prop :=
  match t_cfa t with CfaExpression b => forall l, expression c b l -> expr_defined e false big no_cfa (cfa_program b l) | _ => True end /\
  forall n, match t_reg t n with
            | Expression b => forall l, expression c b l -> expr_defined e true big (cfa_of c e t) (reg_program b false l)
            | ValExpression b => forall l, expression c b l -> expr_defined e true big (cfa_of c e t) (reg_program b true l)
            | _ => True
            end.
