(* libdw call frame information: encoded pointers (encoded-value.h), the CFI interpreter
   (cfi.c) and the accessors of a frame (dwarf_frame_info.c, dwarf_frame_cfa.c,
   dwarf_frame_register.c).  malloc never fails; a failing assert and every read outside
   the memory object are UB.  Pointers are positions relative to d_buf; pointer arithmetic
   is exact except that the unsigned operand added to a pointer is taken modulo 2^64. *)
From Verif Require Import Base LebModel DwModel.

(* libdwP.h:93-99 *)
Definition DWARF_E_NOERROR := 0.
Definition DWARF_E_INVALID_ACCESS := 2.

(* cfi.h:75-117 the parts of Dwarf_CFI used here.  The section is the first c_dsize bytes
   of the memory object c_mem; what follows is whatever lies behind it in memory. *)
Record cfi := Cfi { c_mem : bytes; c_dsize : Z; c_fle : bool; c_c32 : bool; c_eh : bool;
                    c_vaddr : Z; c_text : Z; c_data : Z }.
(* e_ident[EI_CLASS] == ELFCLASS32 ? 4 : 8 *)
Definition addr_width (c : cfi) : Z := if c_c32 c then 4 else 8.
Definition byte_at (mem : bytes) (p : Z) : outcome Z := match znth mem p with Some b => Ok b | None => UB end.

(* encoded-value.h:59-67: the position after the first byte with the top bit set *)
Fixpoint leb_scan (mem : bytes) (n : nat) (p : Z) : outcome (option Z) :=
  match n with
  | O => Ok None
  | S n' => b <- byte_at mem p ;;
            if Z.land b 128 =? 0 then leb_scan mem n' (p + 1) else Ok (Some (p + 1))
  end.
(* encoded-value.h:38-72 encoded_value_size; p = None is the null pointer *)
Definition encoded_value_size (c : cfi) (encoding : Z) (p : option Z) : outcome Z :=
  if encoding =? 255 then Ok 0
  else let k := Z.land encoding 7 in
  if k =? 2 then Ok 2 else if k =? 3 then Ok 4 else if k =? 4 then Ok 8
  else if k =? 0 then Ok (addr_width c)
  else if k =? 1 then
    match p with
    | None => Ok 0
    | Some p => r <- leb_scan (c_mem c) (Z.to_nat (c_dsize c - p)) p ;;
                match r with Some e => Ok (e - p) | None => Ok 0 end
    end
  else Ok 0.
(* encoded-value.h:74-109 __libdw_cfi_read_address_inc; for .debug_frame libdwP.h:842-896
   without relocations *)
Definition cfi_read_address (c : cfi) (p width : Z) : outcome Z :=
  let width := if width =? 0 then addr_width c else width in
  if c_eh c then
    if width =? 4
    then if c_dsize c <? p + 4 then Err DWARF_E_INVALID_CFI else rd (c_fle c) (c_mem c) p 4
    else if c_dsize c <? p + 8 then Err DWARF_E_INVALID_CFI else rd (c_fle c) (c_mem c) p 8
  else if (p <? 0) || (c_dsize c <? width) || (c_dsize c - width <? p) then Err DWARF_E_INVALID_OFFSET
  else rd (c_fle c) (c_mem c) p width.

(* encoded-value.h:116-154 the base a value is relative to, and the position of the value.
   Err 0 is a failure that sets no error code (encoded-value.h:142-143). *)
Definition encoded_base (c : cfi) (encoding p : Z) : outcome (Z * Z) :=
  let k := Z.land encoding 112 in
  if k =? 0 then Ok (0, p)
  else if k =? 16 then Ok (u64 (c_vaddr c + p), p)
  else if k =? 32 then Ok (c_text c, p)
  else if k =? 48 then Ok (c_data c, p)
  else if k =? 64 then Ok (0, p)
  else if k =? 80 then
    size <- encoded_value_size c encoding (Some p) ;;
    if size =? 0 then Err 0
    else let align := Z.land (u64 (c_vaddr c + p)) (size - 1) in
         Ok (0, if align =? 0 then p else p + (size - align))
  else Err DWARF_E_INVALID_CFI.
(* encoded-value.h:156-211 the value itself and the position after it *)
Definition encoded_raw (c : cfi) (encoding p : Z) : outcome (Z * Z) :=
  let mem := c_mem c in let endp := c_dsize c in
  let k := Z.land encoding 15 in
  if k =? 2 then
    if endp <? p + 2 then Err DWARF_E_INVALID_CFI else v <- rd (c_fle c) mem p 2 ;; Ok (v, p + 2)
  else if k =? 10 then
    if endp <? p + 2 then Err DWARF_E_INVALID_CFI else v <- rd (c_fle c) mem p 2 ;; Ok (u64 (s16 v), p + 2)
  else if k =? 3 then v <- cfi_read_address c p 4 ;; Ok (v, p + 4)
  else if k =? 11 then v <- cfi_read_address c p 4 ;; Ok (u64 (s32 v), p + 4)
  else if (k =? 4) || (k =? 12) then v <- cfi_read_address c p 8 ;; Ok (v, p + 8)
  else if k =? 0 then v <- cfi_read_address c p 0 ;; Ok (v, p + addr_width c)
  else if k =? 1 then get_uleb128 mem p endp
  else if k =? 9 then ' (v, p') <- get_sleb128 mem p endp ;; Ok (u64 v, p')
  else Err DWARF_E_INVALID_CFI.
(* encoded-value.h:213-227 the last step; Err 0 as above (216, 222) *)
Definition encoded_indirect (c : cfi) (encoding v : Z) : outcome Z :=
  if Z.land encoding 128 =? 0 then Ok v
  else if v <? c_vaddr c then Err 0
  else let r := v - c_vaddr c in
       if (c_dsize c <? addr_width c) || (c_dsize c - addr_width c <? r) then Err 0
       else cfi_read_address c r 0.
(* encoded-value.h:111-230 read_encoded_value: the value and the position after it *)
Definition read_encoded_value (c : cfi) (encoding p : Z) : outcome (Z * Z) :=
  ' (base, p) <- encoded_base c encoding p ;;
  ' (v, p) <- encoded_raw c encoding p ;;
  r <- encoded_indirect c encoding (u64 (base + v)) ;;
  Ok (r, p).

(* ------------------------------------------------------------------ *)
(* cfi.h:120-152 struct dwarf_frame_register.  The value has 61 bits. *)
Inductive rrule :=
| RUnspec | RUndef | RSame | ROff (v : Z) | RValOff (v : Z) | RReg (v : Z) | RExpr (v : Z) | RValExpr (v : Z).
Definition s61 (v : Z) : Z := (v + 2 ^ 60) mod 2 ^ 61 - 2 ^ 60.
(* cfi.h:176-184 the rule for the CFA; CfaExpr holds position and length of the expression.
   The contents of the union in the states undefined and invalid are never read. *)
Inductive cfa_t := CfaUndef | CfaOff (reg off : Z) | CfaExpr (pos len : Z) | CfaInvalid.
(* cfi.h:156-188 Dwarf_Frame without the links; nregs is the length of f_regs *)
Record frame := Frame { f_start : Z; f_end : Z; f_cfa : cfa_t; f_regs : list rrule }.
(* cfi.h:37-58 the parts of struct dwarf_cie used by the interpreter *)
Record cie := Cie { k_caf : Z; k_daf : Z; k_enc : Z; k_init : option frame }.
(* the local state of execute_cfi: the frame, its chain of remembered states, loc, and
   cache->default_same_value *)
Record state := State { s_loc : Z; s_fs : frame; s_prev : list frame; s_same : bool }.

Definition set_regs (fs : frame) (r : list rrule) := Frame (f_start fs) (f_end fs) (f_cfa fs) r.
Definition set_cfa (fs : frame) (r : cfa_t) := Frame (f_start fs) (f_end fs) r (f_regs fs).
Definition set_fs (s : state) (fs : frame) := State (s_loc s) fs (s_prev s) (s_same s).
Definition set_loc (s : state) (loc : Z) := State loc (s_fs s) (s_prev s) (s_same s).

(* cfi.c:60-90 enough_registers *)
Definition MAX_REG : Z := 268435455.                         (* INT32_MAX / sizeof regs[0] *)
Definition enough_registers (reg : Z) (fs : frame) : outcome frame :=
  if MAX_REG <=? reg then Err DWARF_E_INVALID_CFI
  else if zlen (f_regs fs) <=? reg
  then Ok (set_regs fs (f_regs fs ++ repeat RUnspec (Z.to_nat (reg + 1 - zlen (f_regs fs)))))
  else Ok fs.
(* cfi.c:121-126 register_rule *)
Definition register_rule (reg : Z) (r : rrule) (s : state) : outcome state :=
  fs <- enough_registers reg (s_fs s) ;;
  Ok (set_fs s (set_regs fs (zset (f_regs fs) reg r))).
(* cfi.c:92-97 require_cfa_offset, followed by an update of register or offset *)
Definition cfa_set_reg (r : cfa_t) (reg : Z) : cfa_t := match r with CfaOff _ o => CfaOff reg o | _ => CfaInvalid end.
Definition cfa_set_off (r : cfa_t) (off : Z) : cfa_t := match r with CfaOff g _ => CfaOff g off | _ => CfaInvalid end.

(* program += operand *)
Definition ptr_add (p operand : Z) : Z := p + s64 operand.
(* cfi_assert *)
Definition cfi_assert (ok : bool) : outcome unit := if ok then Ok tt else Err DWARF_E_INVALID_CFI.

(* cfi.c:352-370 DW_CFA_GNU_window_save *)
Definition window_rule (aw : Z) (regno : Z) : rrule :=
  if regno <? 16 then RReg (regno + 16) else ROff ((regno - 16) * aw).
Fixpoint window_save (aw : Z) (n : nat) (regno : Z) (regs : list rrule) : list rrule :=
  match n with O => regs | S n' => window_save aw n' (regno + 1) (zset regs regno (window_rule aw regno)) end.

(* cfi.c:302-324 DW_CFA_restore and DW_CFA_restore_extended *)
Definition do_restore (k : cie) (abi : bool) (opcode operand : Z) (s : state) : outcome state :=
  if abi && (opcode =? 192) then Ok (State (s_loc s) (s_fs s) (s_prev s) true)
  else match k_init k with
       | None => Err DWARF_E_INVALID_CFI
       | Some i =>
           fs <- enough_registers operand (s_fs s) ;;
           Ok (set_fs s (set_regs fs (zset (f_regs fs) operand
                 (match znth (f_regs i) operand with Some r => r | None => RUnspec end))))
       end.

(* cfi.c:128-381 one iteration of the loop up to the end of the switch; the flag says
   whether the instruction has moved loc.  For abi_cfi the program is not in the section:
   DW_CFA_set_loc is then not modelled (UB), no backend uses it. *)
Definition cfi_step (c : cfi) (k : cie) (abi : bool) (mem : bytes) (pend : Z) (program : Z) (s : state)
  : outcome (bool * Z * state) :=
  opcode <- byte_at mem program ;;
  let program := program + 1 in
  let operand := Z.land opcode 63 in
  let fs := s_fs s in
  let advance operand program := Ok (true, program, set_loc s (u64 (s_loc s + operand * k_caf k))) in
  let next program s := Ok (false, program, s) in
  let rule program reg r := s <- register_rule reg r s ;; next program s in
  let daf o := u64 (o * k_daf k) in
  if opcode =? 2 then operand <- byte_at mem program ;; advance operand (program + 1)
  else if Z.land opcode 192 =? 64 then advance operand program
  else if opcode =? 3 then
    _ <- cfi_assert (program + 2 <=? pend) ;; operand <- rd (c_fle c) mem program 2 ;; advance operand (program + 2)
  else if opcode =? 4 then
    _ <- cfi_assert (program + 4 <=? pend) ;; operand <- rd (c_fle c) mem program 4 ;; advance operand (program + 4)
  else if opcode =? 29 then
    _ <- cfi_assert (program + 8 <=? pend) ;; operand <- rd (c_fle c) mem program 8 ;; advance operand (program + 8)
  else if opcode =? 1 then
    if abi then UB
    else ' (loc, program) <- read_encoded_value c (k_enc k) program ;; Ok (true, program, set_loc s loc)
  else if opcode =? 12 then                                          (* def_cfa *)
    ' (operand, program) <- get_uleb128 mem program pend ;;
    _ <- cfi_assert (program <? pend) ;;
    ' (offset, program) <- get_uleb128 mem program pend ;;
    next program (set_fs s (set_cfa fs (CfaOff operand offset)))
  else if opcode =? 13 then                                          (* def_cfa_register *)
    ' (regno, program) <- get_uleb128 mem program pend ;;
    next program (set_fs s (set_cfa fs (cfa_set_reg (f_cfa fs) regno)))
  else if opcode =? 18 then                                          (* def_cfa_sf *)
    ' (operand, program) <- get_uleb128 mem program pend ;;
    _ <- cfi_assert (program <? pend) ;;
    ' (sf, program) <- get_sleb128 mem program pend ;;
    next program (set_fs s (set_cfa fs (CfaOff operand (daf sf))))
  else if opcode =? 14 then                                          (* def_cfa_offset *)
    ' (offset, program) <- get_uleb128 mem program pend ;;
    next program (set_fs s (set_cfa fs (cfa_set_off (f_cfa fs) offset)))
  else if opcode =? 19 then                                          (* def_cfa_offset_sf *)
    ' (sf, program) <- get_sleb128 mem program pend ;;
    next program (set_fs s (set_cfa fs (cfa_set_off (f_cfa fs) (daf sf))))
  else if opcode =? 15 then                                          (* def_cfa_expression *)
    ' (operand, program) <- get_uleb128 mem program pend ;;
    _ <- cfi_assert (operand <=? u64 (pend - program)) ;;
    next (ptr_add program operand) (set_fs s (set_cfa fs (CfaExpr program operand)))
  else if opcode =? 7 then                                           (* undefined *)
    ' (regno, program) <- get_uleb128 mem program pend ;; rule program regno RUndef
  else if opcode =? 8 then                                           (* same_value *)
    ' (regno, program) <- get_uleb128 mem program pend ;; rule program regno RSame
  else if opcode =? 5 then                                           (* offset_extended *)
    ' (operand, program) <- get_uleb128 mem program pend ;;
    _ <- cfi_assert (program <? pend) ;;
    ' (offset, program) <- get_uleb128 mem program pend ;;
    rule program operand (ROff (s61 (daf offset)))
  else if Z.land opcode 192 =? 128 then                              (* offset *)
    ' (offset, program) <- get_uleb128 mem program pend ;;
    rule program operand (ROff (s61 (daf offset)))
  else if opcode =? 17 then                                          (* offset_extended_sf *)
    ' (operand, program) <- get_uleb128 mem program pend ;;
    ' (sf, program) <- get_sleb128 mem program pend ;;
    rule program operand (ROff (s61 (daf sf)))
  else if opcode =? 47 then                                          (* GNU_negative_offset_extended *)
    ' (operand, program) <- get_uleb128 mem program pend ;;
    _ <- cfi_assert (program <? pend) ;;
    ' (offset, program) <- get_uleb128 mem program pend ;;
    rule program operand (ROff (s61 (daf (u64 (- offset)))))
  else if opcode =? 20 then                                          (* val_offset *)
    ' (operand, program) <- get_uleb128 mem program pend ;;
    _ <- cfi_assert (program <? pend) ;;
    ' (offset, program) <- get_uleb128 mem program pend ;;
    rule program operand (RValOff (s61 (daf offset)))
  else if opcode =? 21 then                                          (* val_offset_sf *)
    ' (operand, program) <- get_uleb128 mem program pend ;;
    _ <- cfi_assert (program <? pend) ;;
    ' (sf, program) <- get_sleb128 mem program pend ;;
    rule program operand (RValOff (s61 (daf sf)))
  else if opcode =? 9 then                                           (* register *)
    ' (regno, program) <- get_uleb128 mem program pend ;;
    _ <- cfi_assert (program <? pend) ;;
    ' (operand, program) <- get_uleb128 mem program pend ;;
    rule program regno (RReg (s61 operand))
  else if opcode =? 16 then                                          (* expression *)
    if abi then UB else
    ' (regno, program) <- get_uleb128 mem program pend ;;
    let offset := program in
    _ <- cfi_assert (program <? pend) ;;
    ' (operand, program) <- get_uleb128 mem program pend ;;
    _ <- cfi_assert (operand <=? u64 (pend - program)) ;;
    rule (ptr_add program operand) regno (RExpr (s61 offset))
  else if opcode =? 22 then                                          (* val_expression *)
    if abi then UB else
    ' (regno, program) <- get_uleb128 mem program pend ;;
    let offset := program in
    ' (operand, program) <- get_uleb128 mem program pend ;;
    _ <- cfi_assert (operand <=? u64 (pend - program)) ;;
    rule (ptr_add program operand) regno (RValExpr (s61 offset))
  else if opcode =? 6 then                                           (* restore_extended *)
    ' (operand, program) <- get_uleb128 mem program pend ;;
    s <- do_restore k abi opcode operand s ;; next program s
  else if Z.land opcode 192 =? 192 then                              (* restore *)
    s <- do_restore k abi opcode operand s ;; next program s
  else if opcode =? 10 then                                          (* remember_state *)
    next program (State (s_loc s) fs (fs :: s_prev s) (s_same s))
  else if opcode =? 11 then                                          (* restore_state *)
    match s_prev s with
    | [] => Err DWARF_E_INVALID_CFI
    | f :: r => next program (State (s_loc s) f r (s_same s))
    end
  else if opcode =? 0 then next program s                            (* nop *)
  else if opcode =? 45 then                                          (* GNU_window_save *)
    fs <- enough_registers 31 fs ;;
    next program (set_fs s (set_regs fs (window_save (addr_width c) 24 8 (f_regs fs))))
  else if opcode =? 46 then                                          (* GNU_args_size *)
    ' (_, program) <- get_uleb128 mem program pend ;; next program s
  else Err DWARF_E_INVALID_CFI.

(* cfi.c:128-395 the loop.  After an instruction that has moved loc the row may be
   complete (383-394).  err is the error code of the thread: when read_encoded_value failed
   without setting one (Err 0), "result = dwarf_errno ()" (cfi.c:164-165) is that stale
   code, and if it is 0 the function succeeds with the state it has. *)
Fixpoint cfi_loop (fuel : nat) (err : Z) (c : cfi) (k : cie) (abi : bool) (mem : bytes) (pend find_pc : Z)
  (program : Z) (s : state) : outcome state :=
  match fuel with
  | O => Fuel
  | S fuel' =>
      if program <? pend then
        match cfi_step c k abi mem pend program s with
        | Ok (moved, program, s) =>
            if moved then
              match k_init k with
              | None => Err DWARF_E_INVALID_CFI
              | Some _ =>
                  if s_loc s <=? find_pc
                  then cfi_loop fuel' err c k abi mem pend find_pc program
                         (set_fs s (Frame (s_loc s) (f_end (s_fs s)) (f_cfa (s_fs s)) (f_regs (s_fs s))))
                  else Ok (set_fs s (Frame (f_start (s_fs s)) (s_loc s) (f_cfa (s_fs s)) (f_regs (s_fs s))))
              end
            else cfi_loop fuel' err c k abi mem pend find_pc program s
        | Err e => if e =? 0 then if err =? 0 then Ok s else Err err else Err e
        | UB => UB
        | Fuel => Fuel
        end
      else Ok s
  end.

(* cfi.c:101-425 execute_cfi *)
Definition execute_cfi (err : Z) (c : cfi) (k : cie) (fs : frame) (same : bool) (mem : bytes)
  (program pend : Z) (abi : bool) (loc find_pc : Z) : outcome (frame * bool) :=
  if find_pc <? loc then UB
  else
    s <- cfi_loop (S (Z.to_nat (pend - program))) err c k abi mem pend find_pc program (State loc fs [] same) ;;
    Ok (s_fs s, s_same s).

(* cfi.c:427-493 cie_cache_initial_state for a CIE not used before: first the program of
   the backend (its bytes and data alignment factor; [] if there is none), then the CIE's
   initial instructions at [istart, iend) of the section. *)
Definition initial_state (err : Z) (c : cfi) (caf daf enc : Z) (abi : bytes) (abi_daf : Z) (same : bool)
  (istart iend : Z) : outcome (frame * bool) :=
  ' (fs, same) <- (if 0 <? zlen abi
                   then execute_cfi err c (Cie 1 abi_daf 0 None) (Frame 0 0 CfaUndef []) same abi 0 (zlen abi) true 0 (two64 - 1)
                   else Ok (Frame 0 0 CfaUndef [], same)) ;;
  if istart <? iend
  then execute_cfi err c (Cie caf daf enc None) fs same (c_mem c) istart iend false 0 (two64 - 1)
  else Ok (fs, same).

(* cfi.c:495-518 __libdw_frame_at_address for an FDE [start, end_) with instructions
   [istart, iend) whose CIE has the given cached initial state *)
Definition frame_at_address (err : Z) (c : cfi) (k : cie) (init : frame) (same : bool)
  (start end_ istart iend address : Z) : outcome (frame * bool) :=
  execute_cfi err c k (Frame start end_ (f_cfa init) (f_regs init)) same (c_mem c) istart iend false start address.

(* ------------------------------------------------------------------ *)
(* The accessors. *)
(* dwarf_frame_info.c:36-50 *)
Definition frame_info (fs : frame) : Z * Z := (f_start fs, f_end fs).
(* libdw.h Dwarf_Op: atom, number, number2 (the offset inside the expression is 0 here) *)
Definition op : Type := Z * Z * Z.
(* What the accessors report: a list of operations; no location (ops set to NULL); or the
   expression block at a position of the section, of the given length, to be decoded by
   __libdw_intern_expression (modelled elsewhere). *)
Inductive rep := Ops (l : list op) | NoOps | Block (pos len : Z) (is_value : bool).
(* dwarf_frame_cfa.c:36-78; DW_OP_bregx is 0x92 *)
Definition frame_cfa (fs : frame) : outcome rep :=
  match f_cfa fs with
  | CfaUndef => Ok NoOps
  | CfaOff r o => Ok (Ops [(146, r, o)])
  | CfaExpr p n => Ok (Block p n false)
  | CfaInvalid => Err DWARF_E_INVALID_CFI
  end.
(* dwarf_frame_register.c:36-119; DW_OP_call_frame_cfa 0x9c, DW_OP_plus_uconst 0x23,
   DW_OP_stack_value 0x9f, DW_OP_regx 0x90.  The value is converted to Dwarf_Word. *)
Definition frame_register (c : cfi) (same : bool) (fs : frame) (regno : Z) : outcome rep :=
  if regno <? 0 then Err DWARF_E_INVALID_ACCESS
  else match znth (f_regs fs) regno with
       | None | Some RUnspec => Ok (if same then NoOps else Ops [])
       | Some RUndef => Ok (Ops [])
       | Some RSame => Ok NoOps
       | Some (ROff v) => Ok (Ops ((156, 0, 0) :: if v =? 0 then [] else [(35, u64 v, 0)]))
       | Some (RValOff v) => Ok (Ops ((156, 0, 0) :: (if v =? 0 then [] else [(35, u64 v, 0)]) ++ [(159, 0, 0)]))
       | Some (RReg v) => Ok (Ops [(144, u64 v, 0)])
       | Some (RExpr p) => ' (n, q) <- get_uleb128 (c_mem c) p (c_dsize c) ;; Ok (Block q n false)
       | Some (RValExpr p) => ' (n, q) <- get_uleb128 (c_mem c) p (c_dsize c) ;; Ok (Block q n true)
       end.
