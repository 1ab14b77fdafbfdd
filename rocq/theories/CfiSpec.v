(* Specification of DWARF call frame information (DWARF 4, section 6.4): the instructions,
   their encoding, and the table of rows an FDE describes.  Independent of the interpreter;
   only the description of the section (record cfi: byte order, address size, bases of the
   .eh_frame pointer encodings) is shared with the model. *)
From Verif Require Import Base LebSpec Slice CfiModel.

(* b is a LEB128 encoding of v.  Signed numbers of ten bytes are not decoded (C02). *)
Definition uleb_of (v : Z) (b : bytes) : Prop := leb_complete b /\ zlen b <= 10 /\ uleb_value b = v /\ v < two64.
Definition sleb_of (v : Z) (b : bytes) : Prop := leb_complete b /\ zlen b <= 9 /\ sleb_value b = v.

(* ---- the instructions (6.4.2) ---- *)
Inductive ins :=
| Advance (delta : Z) | SetLoc (a : Z)
| DefCfa (r o : Z) | DefCfaSf (r o : Z) | DefCfaReg (r : Z) | DefCfaOff (o : Z) | DefCfaOffSf (o : Z)
| DefCfaExpr (b : bytes)
| IUndefined (r : Z) | ISameValue (r : Z) | IOffset (r o : Z) | IOffsetSf (r o : Z) | INegOffset (r o : Z)
| IValOffset (r o : Z) | IValOffsetSf (r o : Z) | IRegister (r r2 : Z)
| IExpression (r : Z) (b : bytes) | IValExpression (r : Z) (b : bytes)
| Restore (r : Z) | Remember | RestoreState | Nop | ArgsSize (n : Z) | WindowSave.

(* ---- encoded pointers of .eh_frame (LSB, DWARF exception header encoding) ---- *)
(* the formats *)
Inductive fmt_encodes (c : cfi) : Z -> Z -> bytes -> Prop :=
| F_abs : forall v, 0 <= v < 256 ^ addr_width c -> fmt_encodes c 0 v (enc (c_fle c) (addr_width c) v)
| F_uleb : forall v b, uleb_of v b -> fmt_encodes c 1 v b
| F_u2 : forall v, 0 <= v < 256 ^ 2 -> fmt_encodes c 2 v (enc (c_fle c) 2 v)
| F_u4 : forall v, 0 <= v < 256 ^ 4 -> fmt_encodes c 3 v (enc (c_fle c) 4 v)
| F_u8 : forall v, 0 <= v < 256 ^ 8 -> fmt_encodes c 4 v (enc (c_fle c) 8 v)
| F_sleb : forall v b, sleb_of v b -> fmt_encodes c 9 v b
| F_s2 : forall v, - 2 ^ 15 <= v < 2 ^ 15 -> fmt_encodes c 10 v (enc (c_fle c) 2 (v mod 2 ^ 16))
| F_s4 : forall v, - 2 ^ 31 <= v < 2 ^ 31 -> fmt_encodes c 11 v (enc (c_fle c) 4 (v mod 2 ^ 32))
| F_s8 : forall v, - 2 ^ 63 <= v < 2 ^ 63 -> fmt_encodes c 12 v (enc (c_fle c) 8 (v mod 2 ^ 64)).
(* what a value at position p is relative to *)
Inductive base_is (c : cfi) (p : Z) : Z -> Z -> Prop :=
| B_abs : base_is c p 0 0
| B_pcrel : base_is c p 16 (c_vaddr c + p)
| B_text : base_is c p 32 (c_text c)
| B_data : base_is c p 48 (c_data c)
| B_func : base_is c p 64 0.
(* the bytes b at position p denote the address a *)
Definition ptr_encodes (c : cfi) (encoding p a : Z) (b : bytes) : Prop :=
  exists application format base v,
    encoding = application + format /\ base_is c p application base /\ fmt_encodes c format v b /\
    a = (base + v) mod two64.

(* ---- the encoding of an instruction found at position p (7.23) ---- *)
Inductive encodes (c : cfi) (encoding p : Z) : ins -> bytes -> Prop :=
| E_adv : forall d, 0 <= d < 64 -> encodes c encoding p (Advance d) [64 + d]
| E_adv1 : forall d, 0 <= d < 256 -> encodes c encoding p (Advance d) [2; d]
| E_adv2 : forall d, 0 <= d < 256 ^ 2 -> encodes c encoding p (Advance d) (3 :: enc (c_fle c) 2 d)
| E_adv4 : forall d, 0 <= d < 256 ^ 4 -> encodes c encoding p (Advance d) (4 :: enc (c_fle c) 4 d)
| E_adv8 : forall d, 0 <= d < 256 ^ 8 -> encodes c encoding p (Advance d) (29 :: enc (c_fle c) 8 d)
| E_set : forall a b, ptr_encodes c encoding (p + 1) a b -> encodes c encoding p (SetLoc a) (1 :: b)
| E_def_cfa : forall r o x y, uleb_of r x -> uleb_of o y -> encodes c encoding p (DefCfa r o) (12 :: x ++ y)
| E_def_cfa_sf : forall r o x y, uleb_of r x -> sleb_of o y -> encodes c encoding p (DefCfaSf r o) (18 :: x ++ y)
| E_def_cfa_reg : forall r x, uleb_of r x -> encodes c encoding p (DefCfaReg r) (13 :: x)
| E_def_cfa_off : forall o x, uleb_of o x -> encodes c encoding p (DefCfaOff o) (14 :: x)
| E_def_cfa_off_sf : forall o x, sleb_of o x -> encodes c encoding p (DefCfaOffSf o) (19 :: x)
| E_def_cfa_expr : forall b x, uleb_of (zlen b) x -> encodes c encoding p (DefCfaExpr b) (15 :: x ++ b)
| E_undef : forall r x, uleb_of r x -> encodes c encoding p (IUndefined r) (7 :: x)
| E_same : forall r x, uleb_of r x -> encodes c encoding p (ISameValue r) (8 :: x)
| E_off : forall r o y, 0 <= r < 64 -> uleb_of o y -> encodes c encoding p (IOffset r o) (128 + r :: y)
| E_off_ext : forall r o x y, uleb_of r x -> uleb_of o y -> encodes c encoding p (IOffset r o) (5 :: x ++ y)
| E_off_sf : forall r o x y, uleb_of r x -> sleb_of o y -> encodes c encoding p (IOffsetSf r o) (17 :: x ++ y)
| E_neg : forall r o x y, uleb_of r x -> uleb_of o y -> encodes c encoding p (INegOffset r o) (47 :: x ++ y)
| E_val : forall r o x y, uleb_of r x -> uleb_of o y -> encodes c encoding p (IValOffset r o) (20 :: x ++ y)
| E_val_sf : forall r o x y, uleb_of r x -> sleb_of o y -> encodes c encoding p (IValOffsetSf r o) (21 :: x ++ y)
| E_reg : forall r o x y, uleb_of r x -> uleb_of o y -> encodes c encoding p (IRegister r o) (9 :: x ++ y)
| E_expr : forall r b x y, uleb_of r x -> uleb_of (zlen b) y -> encodes c encoding p (IExpression r b) (16 :: x ++ y ++ b)
| E_val_expr : forall r b x y, uleb_of r x -> uleb_of (zlen b) y -> encodes c encoding p (IValExpression r b) (22 :: x ++ y ++ b)
| E_restore : forall r, 0 <= r < 64 -> encodes c encoding p (Restore r) [192 + r]
| E_restore_ext : forall r x, uleb_of r x -> encodes c encoding p (Restore r) (6 :: x)
| E_remember : encodes c encoding p Remember [10]
| E_restore_state : encodes c encoding p RestoreState [11]
| E_nop : encodes c encoding p Nop [0]
| E_args : forall n x, uleb_of n x -> encodes c encoding p (ArgsSize n) (46 :: x)
| E_window : encodes c encoding p WindowSave [45].
Inductive encodes_prog (c : cfi) (encoding : Z) : Z -> list ins -> bytes -> Prop :=
| EP_nil : forall p, encodes_prog c encoding p [] []
| EP_cons : forall p i b is bs, encodes c encoding p i b -> encodes_prog c encoding (p + zlen b) is bs ->
              encodes_prog c encoding p (i :: is) (b ++ bs).

(* ---- the rules (6.4.1) ---- *)
Inductive srule :=
| Unspecified | Undefined | SameValue | Offset (n : Z) | ValOffset (n : Z) | Register (r : Z)
| Expression (b : bytes) | ValExpression (b : bytes).
Inductive scfa := NoCfa | RegOff (r n : Z) | CfaExpression (b : bytes) | BadCfa.
Record rules := Rules { t_cfa : scfa; t_reg : Z -> srule }.

(* alignment factors, address size in bytes, and the rules set by the CIE *)
Record context := Context { x_caf : Z; x_daf : Z; x_aw : Z; x_init : Z -> srule }.

Definition upd (f : Z -> srule) (r : Z) (v : srule) : Z -> srule := fun n => if n =? r then v else f n.
Definition with_reg (t : rules) (r : Z) (v : srule) : rules := Rules (t_cfa t) (upd (t_reg t) r v).
Definition with_cfa (t : rules) (v : scfa) : rules := Rules v (t_reg t).
(* the register window of SPARC: %o0-%o7 are found in %i0-%i7, %l0-%l7 and %i0-%i7 at the CFA *)
Definition window (aw : Z) (f : Z -> srule) : Z -> srule :=
  fun n => if (8 <=? n) && (n <? 16) then Register (n + 16)
           else if (16 <=? n) && (n <? 32) then Offset ((n - 16) * aw) else f n.

(* the location an instruction moves to, if it is one that does *)
Definition moves (x : context) (i : ins) (loc : Z) : option Z :=
  match i with
  | Advance d => Some (loc + d * x_caf x)
  | SetLoc a => Some a
  | _ => None
  end.
(* the effect of the other instructions on the current rules and the stack of remembered
   ones; None where the program is malformed *)
Definition effect (x : context) (i : ins) (t : rules) (stack : list rules) : option (rules * list rules) :=
  let ok t := Some (t, stack) in
  match i with
  | Advance _ | SetLoc _ => None
  | DefCfa r o => ok (with_cfa t (RegOff r o))
  | DefCfaSf r o => ok (with_cfa t (RegOff r (o * x_daf x)))
  | DefCfaReg r => ok (with_cfa t match t_cfa t with RegOff _ n => RegOff r n | _ => BadCfa end)
  | DefCfaOff o => ok (with_cfa t match t_cfa t with RegOff r _ => RegOff r o | _ => BadCfa end)
  | DefCfaOffSf o => ok (with_cfa t match t_cfa t with RegOff r _ => RegOff r (o * x_daf x) | _ => BadCfa end)
  | DefCfaExpr b => ok (with_cfa t (CfaExpression b))
  | IUndefined r => ok (with_reg t r Undefined)
  | ISameValue r => ok (with_reg t r SameValue)
  | IOffset r o | IOffsetSf r o => ok (with_reg t r (Offset (o * x_daf x)))
  | INegOffset r o => ok (with_reg t r (Offset (- o * x_daf x)))
  | IValOffset r o | IValOffsetSf r o => ok (with_reg t r (ValOffset (o * x_daf x)))
  | IRegister r r2 => ok (with_reg t r (Register r2))
  | IExpression r b => ok (with_reg t r (Expression b))
  | IValExpression r b => ok (with_reg t r (ValExpression b))
  | Restore r => ok (with_reg t r (x_init x r))
  | Remember => Some (t, t :: stack)
  | RestoreState => match stack with [] => None | t' :: r => Some (t', r) end
  | Nop | ArgsSize _ => ok t
  | WindowSave => ok (Rules (t_cfa t) (window (x_aw x) (t_reg t)))
  end.

(* the table: one row for each stretch of code between two changes of the location, the
   last one ending at the end of the FDE *)
Record row := Row { r_lo : Z; r_hi : Z; r_rules : rules }.
Fixpoint table (x : context) (fin loc : Z) (t : rules) (stack : list rules) (prog : list ins) : option (list row) :=
  match prog with
  | [] => Some [Row loc fin t]
  | i :: r =>
      match moves x i loc with
      | Some loc' => match table x fin loc' t stack r with
                     | Some rows => Some (Row loc loc' t :: rows)
                     | None => None
                     end
      | None => match effect x i t stack with
                | Some (t', stack') => table x fin loc t' stack' r
                | None => None
                end
      end
  end.
(* new locations are never below the current one (6.4.2.1) *)
Definition forward (rows : list row) : Prop := Forall (fun r => r_lo r <= r_hi r) rows.
Definition covers (r : row) (pc : Z) : Prop := r_lo r <= pc < r_hi r.

(* What the implementation can represent: register numbers below 2^28 - 1 and 61-bit
   offsets. *)
Definition reg_ok (r : Z) : Prop := 0 <= r < 268435455.
Definition off_ok (n : Z) : Prop := - 2 ^ 60 <= n < 2 ^ 60.
Definition supported (x : context) (i : ins) : Prop :=
  match i with
  | IUndefined r | ISameValue r | IExpression r _ | IValExpression r _ | Restore r => reg_ok r
  | IOffset r o | IOffsetSf r o | IValOffset r o | IValOffsetSf r o => reg_ok r /\ off_ok (o * x_daf x)
  | INegOffset r o => reg_ok r /\ off_ok (- o * x_daf x)
  | IRegister r r2 => reg_ok r /\ off_ok r2
  | _ => True
  end.

(* ---- what the operations reported for a register mean, given the CFA ---- *)
Inductive where_ := Unavailable | Same | SavedAt (a : Z) | ValueIs (v : Z) | InRegister (r : Z)
                  | ByExpr (b : bytes) (is_value : bool) | Unknown.
(* evaluation of the operations used: call_frame_cfa, plus_uconst, stack_value, regx *)
Fixpoint eval_ops (cfa : Z) (top : option Z) (l : list op) : where_ :=
  match l, top with
  | [], None => Unavailable
  | [], Some v => SavedAt v
  | [(144, r, _)], None => InRegister r
  | [(159, _, _)], Some v => ValueIs v
  | (156, _, _) :: l', None => eval_ops cfa (Some cfa) l'
  | (35, n, _) :: l', Some v => eval_ops cfa (Some ((v + n) mod two64)) l'
  | _, _ => Unknown
  end.
(* where the caller's value of a register is, by the rule (6.4.1) *)
Definition found (same : bool) (cfa : Z) (r : srule) : where_ :=
  match r with
  | Unspecified => if same then Same else Unavailable
  | Undefined => Unavailable
  | SameValue => Same
  | Offset n => SavedAt ((cfa + n) mod two64)
  | ValOffset n => ValueIs ((cfa + n) mod two64)
  | Register r => InRegister r
  | Expression b => ByExpr b false
  | ValExpression b => ByExpr b true
  end.

(* The rules left by instructions that do not move: the CIE's initial instructions, which
   may neither move nor restore. *)
Fixpoint play (x : context) (t : rules) (stack : list rules) (prog : list ins) : option rules :=
  match prog with
  | [] => Some t
  | Restore _ :: _ => None
  | i :: r => match effect x i t stack with Some (t', stack') => play x t' stack' r | None => None end
  end.
(* before any instruction *)
Definition no_rules : rules := Rules NoCfa (fun _ => Unspecified).
