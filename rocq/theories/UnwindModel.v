(* libdwfl/frame_unwind.c:538-683: one step of unwinding with call frame information.  malloc never fails.
   The error codes that are set on the way are not modelled. *)
From Verif Require Import Base DwModel CfiModel NcfiModel FdeModel FrameModel LocModel EvalModel.

(* libdw/dwarf_frame_register.c:96-114, dwarf_frame_cfa.c:58-64: how an expression of the section is
   decoded.  Simplification: decoding starts with an empty cache; that the cache changes nothing as long as
   a block is asked for in one way is C42_history_partial. *)
Definition cfi_loc (c : cfi) : loc := Loc (c_mem c) false None (addr_width c) 4 (c_fle c).
(* The operations of an answer: None if *ops is null, no operations if it is ops_mem with none.  An empty
   block leaves *ops as it was, which is ops_mem (dwarf_getlocation.c:222-228). *)
Definition rep_ops (c : cfi) (cfap : bool) (r : rep) : outcome (option (list op)) :=
  match r with
  | NoOps => Ok None
  | Ops l => Ok (Some (map (fun x : CfiModel.op => let '(a, n, k) := x in Op a n k 0) l))
  | Block p n v => ' (x, _) <- intern (cfi_loc c) tree0 p n cfap v ;; Ok (Some (match x with Some (_, l) => l | None => [] end))
  end.
(* dwarf_frame_cfa as expr_eval uses it; no operations if there are none *)
Definition cfa_ops (c : cfi) (fs : frame) : outcome (list op) :=
  r <- frame_cfa fs ;; o <- rep_ops c false r ;; Ok (match o with Some l => l | None => [] end).

(* libdwflP.h:262-290 Dwfl_Frame: the registers, the state of the pc with the pc, and signal_frame *)
Inductive pc_state := PcError | PcSet (pc : Z) | PcUndefined.
Record unwound := Unwound { n_regs : regs; n_pc : pc_state; n_signal : bool }.

(* frame_unwind.c:568-636: one register.  cra is the register of the return address in the CIE, ra the
   backend's number for it.  The state: the registers, ra_set, and whether pc_state was set to undefined. *)
Definition one (m : mach) (c : cfi) (same : bool) (fs : frame) (cra ra regno : Z) (st : regs * bool * bool) : outcome (regs * bool * bool) :=
  let '(g, ra_set, undef) := st in
  match (r <- frame_register c same fs regno ;; rep_ops c true r) with
  | UB => UB
  | Fuel => Fuel
  | Err _ => Ok st
  | Ok (Some []) => Ok (g, ra_set, undef || (regno =? ra))
  | Ok o =>
    match (match o with
           | None => get_reg (h_ebl m) (h_regs m) regno
           | Some l => eval m (c_c32 c) (cfa_ops c fs) l
           end) with
    | UB => UB
    | Fuel => Fuel
    | Err _ => Ok st
    | Ok v =>
      let v := if regno =? cra then Z.land v (b_mask (h_ebl m)) else v in
      let is_ra := match b_regno (h_ebl m) regno with Some r => r =? ra | None => false end in
      if ra_set && negb (regno =? cra) && is_ra then Ok st
      else o <- reg_set (h_ebl m) g regno v ;;
           match o with
           | None => Ok st
           | Some g => Ok (g, ra_set || is_ra, undef)
           end
    end
  end.
Fixpoint each (n : nat) (m : mach) (c : cfi) (same : bool) (fs : frame) (cra ra regno : Z) (st : regs * bool * bool) : outcome (regs * bool * bool) :=
  match n with
  | O => Ok st
  | S k => st <- one m c same fs cra ra regno st ;; each k m c same fs cra ra (regno + 1) st
  end.
(* frame_unwind.c:510-531 new_unwound: no register is known.  The values are not initialised; here they
   are 0. *)
Definition new_regs (b : ebl) : regs := Regs [0; 0; 0] (repeat 0 (Z.to_nat (b_nregs b))).
(* frame_unwind.c:562-682, behind the frame lookup; register numbers are of type unsigned *)
Definition unwind_frame (m : mach) (c : cfi) (same : bool) (fs : frame) (cra : Z) (signal : bool) : outcome unwound :=
  let b := h_ebl m in
  let ra := match b_regno b (u32 cra) with Some r => r | None => u32 cra end in
  ' (g, _, undef) <- each (Z.to_nat (b_nregs b)) m c same fs cra ra 0 (new_regs b, false, false) ;;
  if undef then Ok (Unwound g PcUndefined signal)
  else o <- reg_get b g (u32 cra) ;;
       Ok (Unwound g (match o with
                      | Some v => if v =? 0 then PcUndefined else PcSet (u64 (v + b_raoff b))
                      | None => match b_regno b (u32 cra) with
                                | Some r => if b_nregs b <=? r then PcError else PcUndefined
                                | None => PcError
                                end
                      end) signal).
(* frame_unwind.c:538-683 handle_cfi: None if there is no frame.  The lookup is written twice because the model
   of dwarf_cfi_addrframe does not hand out the FDE, which has the return address register. *)
Definition handle_cfi (m : mach) (err : Z) (c : cfi) (t : option table) (h : cache) (abi : bytes) (abi_daf : Z) (same : bool) (a : Z) : outcome (option unwound) :=
  match cfi_addrframe err c t h abi abi_daf same a with
  | UB => UB
  | Fuel => Fuel
  | Err _ | Ok (inr _) => Ok None
  | Ok (inl (fs, same)) =>
    ' (r, _) <- find_fde c t h a ;;
    match r with
    | inr _ => UB
    | inl g => u <- unwind_frame m c same fs (ic_ra (fd_cie g)) (ic_signal (fd_cie g)) ;; Ok (Some u)
    end
  end.
