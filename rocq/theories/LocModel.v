(* libdw location expressions: dwarf_getlocation.c.  malloc never fails.  Pointers are
   positions relative to the section that holds the expression; reading outside it is UB, and
   so is a failing assert.  The operations of one decoding form an array; its identity is a
   number, and an operation is addressed by the array and its index in it. *)
From Verif Require Import Base LebModel DwModel CfiModel FormModel.

(* What __libdw_intern_expression is told about the file (dwarf_getlocation.c:215-221):
   the section, whether there is a Dwarf descriptor (there is none for call frame
   information), .debug_info, sizes and byte order. *)
Record loc := Loc { l_mem : bytes; l_dbg : bool; l_info : option bytes; l_asize : Z; l_rsize : Z; l_fle : bool }.
(* libdw.h Dwarf_Op *)
Record op := Op { o_atom : Z; o_num : Z; o_num2 : Z; o_off : Z }.

Definition in_range (lo hi x : Z) : bool := (lo <=? x) && (x <=? hi).
Definition among (l : list Z) (x : Z) : bool := existsb (Z.eqb x) l.
(* dwarf_getlocation.c:340-380: DW_OP_deref, DW_OP_dup .. DW_OP_over, DW_OP_swap .. DW_OP_plus,
   DW_OP_shl .. DW_OP_xor, DW_OP_eq .. DW_OP_ne, DW_OP_lit0 .. DW_OP_reg31, DW_OP_nop,
   DW_OP_push_object_address, DW_OP_form_tls_address, DW_OP_call_frame_cfa,
   DW_OP_stack_value, DW_OP_GNU_push_tls_address *)
Definition no_operand (x : Z) : bool :=
  (x =? 6) || in_range 18 20 x || in_range 22 34 x || in_range 36 39 x || in_range 41 46 x || in_range 48 111 x || among [150; 151; 155; 156; 159; 224] x.

(* __libdw_read_address_inc in the section of the expression *)
Definition loc_address (c : loc) (p : Z) : outcome (Z * Z) := v <- read_address (l_fle c) (l_mem c) p (l_asize c) ;; Ok (v, p + l_asize c).
(* __libdw_read_offset_inc of an offset in .debug_info; without descriptor invalid *)
Definition loc_offset (c : loc) (p : Z) : outcome (Z * Z) :=
  if l_dbg c then v <- read_offset (l_fle c) (l_mem c) p (l_rsize c) (l_info c) 0 ;; Ok (v, p + l_rsize c) else Err DWARF_E_INVALID_DWARF.
(* The operands of one operation, dwarf_getlocation.c:303-547: p is after the opcode, e the end
   of the block; number, number2 and the new position.  Errors become DWARF_E_INVALID_DWARF. *)
Definition operands (c : loc) (x p e : Z) : outcome (Z * Z * Z) :=
  let fixed (n : Z) := if e <? p + n then Err DWARF_E_INVALID_DWARF else rd (l_fle c) (l_mem c) p n in
  if x =? 3 then                                                                     (* DW_OP_addr *)
    if l_dbg c then ' (v, q) <- loc_address c p ;; Ok (v, 0, q)
    else if l_asize c =? 4 then v <- fixed 4 ;; Ok (v, 0, p + 4) else v <- fixed 8 ;; Ok (v, 0, p + 8)
  else if among [154; 253] x then ' (v, q) <- loc_offset c p ;; Ok (v, 0, q)         (* call_ref GNU_variable_value *)
  else if no_operand x then Ok (0, 0, p)
  else if among [8; 21; 148; 149] x then                                             (* const1u pick deref_size xderef_size *)
    if e <=? p then Err DWARF_E_INVALID_DWARF else v <- byte_at (l_mem c) p ;; Ok (v, 0, p + 1)
  else if x =? 9 then                                                                (* const1s *)
    if e <=? p then Err DWARF_E_INVALID_DWARF else v <- byte_at (l_mem c) p ;; Ok (u64 (s8 v), 0, p + 1)
  else if x =? 10 then v <- fixed 2 ;; Ok (v, 0, p + 2)                              (* const2u *)
  else if among [11; 47; 40; 152] x then v <- fixed 2 ;; Ok (u64 (s16 v), 0, p + 2)  (* const2s skip bra call2 *)
  else if x =? 12 then v <- fixed 4 ;; Ok (v, 0, p + 4)                              (* const4u *)
  else if among [13; 153; 250] x then v <- fixed 4 ;; Ok (u64 (s32 v), 0, p + 4)     (* const4s call4 GNU_parameter_ref *)
  else if (x =? 14) || (x =? 15) then v <- fixed 8 ;; Ok (v, 0, p + 8)               (* const8u const8s *)
  else if among [16; 35; 144; 147; 168; 247; 169; 249; 161; 251; 162; 252] x then
    (* constu plus_uconst regx piece convert GNU_convert reinterpret GNU_reinterpret addrx
       GNU_addr_index constx GNU_const_index *)
    ' (v, q) <- get_uleb128 (l_mem c) p e ;; Ok (v, 0, q)
  else if (x =? 17) || in_range 112 143 x || (x =? 145) then                          (* consts breg0..31 fbreg *)
    ' (v, q) <- get_sleb128 (l_mem c) p e ;; Ok (u64 v, 0, q)
  else if x =? 146 then                                                              (* bregx *)
    ' (v, q) <- get_uleb128 (l_mem c) p e ;;
    if e <=? q then Err DWARF_E_INVALID_DWARF else ' (w, q') <- get_sleb128 (l_mem c) q e ;; Ok (v, u64 w, q')
  else if among [157; 165; 245] x then                                               (* bit_piece regval_type GNU_regval_type *)
    ' (v, q) <- get_uleb128 (l_mem c) p e ;;
    if e <=? q then Err DWARF_E_INVALID_DWARF else ' (w, q') <- get_uleb128 (l_mem c) q e ;; Ok (v, w, q')
  else if among [158; 163; 243] x then                                               (* implicit_value entry_value GNU_entry_value *)
    if negb (l_dbg c) then Err DWARF_E_INVALID_DWARF
    else ' (v, q) <- get_uleb128 (l_mem c) p e ;;
         if u64 (e - q) <? v then Err DWARF_E_INVALID_DWARF else Ok (v, p, q + s64 v)
  else if among [160; 242] x then                                                    (* implicit_pointer GNU_implicit_pointer *)
    ' (v, q) <- loc_offset c p ;;
    if e <=? q then Err DWARF_E_INVALID_DWARF else ' (w, q') <- get_uleb128 (l_mem c) q e ;; Ok (v, w, q')
  else if among [166; 246; 167] x then                                               (* deref_type GNU_deref_type xderef_type *)
    if e <=? p + 1 then Err DWARF_E_INVALID_DWARF
    else v <- byte_at (l_mem c) p ;; ' (w, q) <- get_uleb128 (l_mem c) (p + 1) e ;; Ok (v, w, q)
  else if among [164; 244] x then                                                    (* const_type GNU_const_type *)
    ' (v, q) <- get_uleb128 (l_mem c) p e ;;
    if e <=? q then Err DWARF_E_INVALID_DWARF
    else n <- byte_at (l_mem c) q ;; if u64 (e - (q + 1)) <? n then Err DWARF_E_INVALID_DWARF else Ok (v, q, q + 1 + n)
  else Err DWARF_E_INVALID_DWARF.
Definition invalid {A} (o : outcome A) : outcome A := match o with Err _ => Err DWARF_E_INVALID_DWARF | _ => o end.

(* dwarf_getlocation.c:288-553: the operations from position p on and the position at the end *)
Fixpoint ops_from (fuel : nat) (c : loc) (start p e : Z) : outcome (list op * Z) :=
  match fuel with
  | O => Fuel
  | S k =>
    if e <=? p then Ok ([], p)
    else x <- byte_at (l_mem c) p ;;
         ' (v, w, q) <- invalid (operands c x (p + 1) e) ;;
         ' (l, z) <- ops_from k c start q e ;;
         Ok (Op x v w (p - start) :: l, z)
  end.

(* The search tree of decoded expressions: by the place of the block (struct loc_s), and by the
   operation, for DW_OP_implicit_value (struct loc_block_s). *)
Record tree_ := Tree { t_next : nat; t_locs : list (Z * (nat * list op)); t_vals : list (nat * nat * (Z * Z)) }.
Definition tree0 := Tree O [] [].
Definition find_loc (t : tree_) (p : Z) : option (nat * list op) := option_map snd (find (fun e => fst e =? p) (t_locs t)).

(* dwarf_getlocation.c:126-143 store_implicit_value for every such operation of the array, from
   the back; the length is read again with ten bytes of room. *)
Fixpoint store_values (c : loc) (id : nat) (idx : nat) (l : list op) (vals : list (nat * nat * (Z * Z))) : outcome (list (nat * nat * (Z * Z))) :=
  match l with
  | [] => Ok vals
  | o :: r =>
    vals' <- store_values c id (S idx) r vals ;;
    if o_atom o =? 158 then
      ' (len, q) <- get_uleb128 (l_mem c) (o_num2 o) (o_num2 o + 10) ;;
      if negb (len =? o_num o) then Err DWARF_E_INVALID_DWARF else Ok (((id, idx), (q, o_num o)) :: vals')
    else Ok vals'
  end.

Definition OP_call_frame_cfa : Z := 156.
Definition OP_stack_value : Z := 159.
(* dwarf_getlocation.c:214-633 __libdw_intern_expression: the array (None for the empty
   expression, which has no array) and the new tree.  A failure keeps the values stored before it. *)
Definition intern (c : loc) (t : tree_) (p len : Z) (cfap valuep : bool) : outcome (option (nat * list op) * tree_) :=
  if len =? 0 then Ok (None, t)
  else match find_loc t p with
  | Some (id, l) =>
    if valuep && negb ((1 <? zlen l) && match znth l (zlen l - 1) with Some o => o_atom o =? OP_stack_value | None => false end) then UB
    else Ok (Some (id, l), t)
  | None =>
    ' (l, z) <- ops_from (S (length (l_mem c))) c p p (p + len) ;;
    let l := (if cfap then [Op OP_call_frame_cfa 0 0 (two64 - 1)] else []) ++ l ++ (if valuep then [Op OP_stack_value 0 0 (z - p)] else []) in
    let id := t_next t in
    vals <- store_values c id O l (t_vals t) ;;
    Ok (Some (id, l), Tree (S id) ((p, (id, l)) :: t_locs t) vals)
  end.
(* dwarf_getlocation.c:145-162 dwarf_getlocation_implicit_value: place and length of the block *)
Definition implicit_value (t : tree_) (id idx : nat) : outcome (Z * Z) :=
  match find (fun e => Nat.eqb (fst (fst e)) id && Nat.eqb (snd (fst e)) idx) (t_vals t) with
  | Some (_, b) => Ok b
  | None => Err DWARF_E_NO_BLOCK
  end.
