(* Specification of DWARF range lists and location lists, read off the DWARF 5 standard, sections
   2.6.2, 2.17.3, 7.7.3 and 7.25, and DWARF 4, sections 2.6.2 and 2.17.3. *)
From Verif Require Import Base LebSpec Slice CfiSpec RngModel.

(* the entries of a list, independent of the format *)
Inductive lent :=
| EOffset (b e : Z)          (* relative to the base address *)
| EBase (a : Z)              (* a new base address *)
| EBasex (i : Z)             (* ... given as an index into .debug_addr *)
| EStartxEndx (i j : Z) | EStartxLen (i n : Z)
| EStartEnd (b e : Z) | EStartLen (b n : Z)
| EDefault.                  (* where no other entry applies *)
Definition code_of (k : lkind) (e : lent) : option Z :=
  match k, e with
  | (KRng | KLoc | KGnu), EBasex _ => Some 1
  | (KRng | KLoc | KGnu), EStartxEndx _ _ => Some 2
  | (KRng | KLoc | KGnu), EStartxLen _ _ => Some 3
  | (KRng | KLoc), EOffset _ _ => Some 4
  | KRng, EBase _ => Some 5 | KRng, EStartEnd _ _ => Some 6 | KRng, EStartLen _ _ => Some 7
  | KLoc, EDefault => Some 5 | KLoc, EBase _ => Some 6 | KLoc, EStartEnd _ _ => Some 7 | KLoc, EStartLen _ _ => Some 8
  | _, _ => None
  end.

Section Enc.
Variables (le : bool) (w : Z).      (* byte order and address size *)
Notation addr a := (0 <= a < 256 ^ w).
(* the operands behind the code byte *)
Inductive operand_bytes (k : lkind) : lent -> bytes -> Prop :=
| O_basex i x : uleb_of i x -> operand_bytes k (EBasex i) x
| O_xx i j x y : uleb_of i x -> uleb_of j y -> operand_bytes k (EStartxEndx i j) (x ++ y)
| O_xlen i n x y : k <> KGnu -> uleb_of i x -> uleb_of n y -> operand_bytes k (EStartxLen i n) (x ++ y)
| O_xlen4 i n x : k = KGnu -> uleb_of i x -> 0 <= n < two32 -> operand_bytes k (EStartxLen i n) (x ++ enc le 4 n)
| O_off b e x y : uleb_of b x -> uleb_of e y -> operand_bytes k (EOffset b e) (x ++ y)
| O_base a : addr a -> operand_bytes k (EBase a) (enc le w a)
| O_se b e : addr b -> addr e -> operand_bytes k (EStartEnd b e) (enc le w b ++ enc le w e)
| O_sl b n y : addr b -> uleb_of n y -> operand_bytes k (EStartLen b n) (enc le w b ++ y)
| O_def : operand_bytes k EDefault [].
(* an entry: a code byte and operands, or in the older format two addresses, where the largest
   address announces a new base and two zeros end the list *)
Inductive entry_bytes (k : lkind) : lent -> bytes -> Prop :=
| B_code e c b : code_of k e = Some c -> operand_bytes k e b -> entry_bytes k e (c :: b)
| B_pair b e : k = KPair -> addr b -> addr e -> b <> 256 ^ w - 1 -> ~ (b = 0 /\ e = 0) ->
    entry_bytes k (EOffset b e) (enc le w b ++ enc le w e)
| B_select a : k = KPair -> addr a -> a <> 256 ^ w - 1 -> entry_bytes k (EBase a) (enc le w (256 ^ w - 1) ++ enc le w a).
Definition end_bytes (k : lkind) : bytes := match k with KPair => enc le w 0 ++ enc le w 0 | _ => [0] end.
Definition is_base (e : lent) : bool := match e with EBase _ | EBasex _ => true | _ => false end.
(* a list whose entries carry something (a location list: an expression), encoded by pay behind
   each entry that is not a base address selection *)
Inductive list_bytes {P} (k : lkind) (pay : P -> bytes -> Prop) : list (lent * P) -> bytes -> Prop :=
| L_end : list_bytes k pay [] (end_bytes k)
| L_base e x b l bl : is_base e = true -> entry_bytes k e b -> list_bytes k pay l bl -> list_bytes k pay ((e, x) :: l) (b ++ bl)
| L_range e x b bx l bl : is_base e = false -> entry_bytes k e b -> pay x bx -> list_bytes k pay l bl ->
    list_bytes k pay ((e, x) :: l) (b ++ bx ++ bl).
End Enc.

(* what an entry means: a range of addresses, or a new base *)
Definition plus (a b : Z) : Z := (a + b) mod two64.
Definition meaning (addrs : list Z) (base : Z) (e : lent) : option (Z * Z) :=
  match e with
  | EOffset b e => Some (plus base b, plus base e)
  | EStartxEndx i j => match znth addrs i, znth addrs j with Some b, Some e => Some (b, e) | _, _ => None end
  | EStartxLen i n => match znth addrs i with Some b => Some (b, plus b n) | None => None end
  | EStartEnd b e => Some (b, e)
  | EStartLen b n => Some (b, plus b n)
  | EDefault => Some (0, two64 - 1)
  | _ => None
  end.
Definition new_base (addrs : list Z) (e : lent) : option Z :=
  match e with EBase a => Some a | EBasex i => znth addrs i | _ => None end.
(* the ranges a list denotes, each with what its entry carries *)
Inductive denotes {P} (addrs : list Z) : Z -> list (lent * P) -> list (Z * Z * P) -> Prop :=
| D_nil base : denotes addrs base [] []
| D_base base base' e x l r : is_base e = true -> new_base addrs e = Some base' -> denotes addrs base' l r -> denotes addrs base ((e, x) :: l) r
| D_range base e x b b' l r : is_base e = false -> meaning addrs base e = Some (b, b') -> denotes addrs base l r ->
    denotes addrs base ((e, x) :: l) ((b, b', x) :: r).
(* range lists carry nothing, location lists an expression with its length *)
Definition no_payload (_ : unit) (b : bytes) : Prop := b = [].
Definition expr_payload (le : bool) (k : lkind) (x b : bytes) : Prop :=
  match k with
  | KPair | KGnu => zlen x < 65536 /\ b = enc le 2 (zlen x) ++ x
  | _ => exists n, uleb_of (zlen x) n /\ b = n ++ x
  end.

(* the header of .debug_rnglists and .debug_loclists (7.28, 7.29): length, version, address size,
   segment selector size, number of offsets; osz is 4 in the 32-bit format and 8 in the 64-bit one *)
Definition list_header (le : bool) (osz len asz count : Z) : bytes :=
  (if osz =? 8 then enc le 4 (two32 - 1) ++ enc le 8 len else enc le 4 len) ++ enc le 2 5 ++ [asz; 0] ++ enc le 4 count.
