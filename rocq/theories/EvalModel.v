(* libdwfl/frame_unwind.c:40-508: the registers of a frame and the evaluation of a DWARF expression
   while unwinding.  malloc never fails.  The memory callback is a function of the address alone: the
   memory does not change during one evaluation.  Freeing the stack is not modelled.  Undefined
   behaviour of the C code is the outcome UB. *)
From Verif Require Import Base DwModel LocModel.

(* libdwflP.h:49-95 *)
Definition DWFL_E_LIBDW : Z := 5.
Definition DWFL_E_INVALID_REGISTER : Z := 31.
Definition DWFL_E_INVALID_DWARF : Z := 35.
Definition DWFL_E_UNSUPPORTED_DWARF : Z := 36.
Definition DWFL_E_INVALID_ARGUMENT : Z := 41.
(* whatever error the caller's callback has set *)
Definition CALLBACK_FAILED : Z := -1.

(* What the backend says: the number of registers, the number of a DWARF register among them, the ELF
   class, the mask of a return address and the offset added to it (libebl/libeblP.h:40-100). *)
Record ebl := Ebl { b_nregs : Z; b_regno : Z -> option Z; b_class32 : bool; b_mask : Z; b_raoff : Z }.
(* libdwflP.h:262-290 struct Dwfl_Frame, its registers: three words with a bit for every known register,
   and the values *)
Record regs := Regs { g_set : list Z; g_val : list Z }.

(* frame_unwind.c:46-61 __libdwfl_frame_reg_get: None is "return false" *)
Definition reg_get (b : ebl) (g : regs) (regno : Z) : outcome (option Z) :=
  match b_regno b regno with
  | None => Ok None
  | Some r =>
    if b_nregs b <=? r then Ok None
    else match znth (g_set g) (r / 64) with
         | None => UB
         | Some w => if Z.land w (2 ^ (r mod 64)) =? 0 then Ok None
                     else match znth (g_val g) r with Some v => Ok (Some v) | None => UB end
         end
  end.
(* frame_unwind.c:63-79 __libdwfl_frame_reg_set *)
Definition reg_set (b : ebl) (g : regs) (regno v : Z) : outcome (option regs) :=
  match b_regno b regno with
  | None => Ok None
  | Some r =>
    if b_nregs b <=? r then Ok None
    else let v := if b_class32 b then Z.land v 4294967295 else v in
         match znth (g_set g) (r / 64) with
         | None => UB
         | Some w => if r <? zlen (g_val g) then Ok (Some (Regs (zset (g_set g) (r / 64) (Z.lor w (2 ^ (r mod 64)))) (zset (g_val g) r v))) else UB
         end
  end.
(* frame_unwind.c:81-90 state_get_reg; the number is an unsigned int *)
Definition get_reg (b : ebl) (g : regs) (number : Z) : outcome Z :=
  o <- reg_get b g (u32 number) ;; match o with Some v => Ok v | None => Err DWFL_E_INVALID_REGISTER end.

(* What is given: the backend, the registers of the frame, the memory callback (None when there is
   none), the byte order of the host, and the bias of the module. *)
Record mach := Mach { h_ebl : ebl; h_regs : regs; h_read : option (Z -> option Z); h_big : bool; h_bias : Z }.

(* frame_unwind.c:106-141 do_push and do_pop: the top first *)
Definition push (v : Z) (s : list Z) : outcome (list Z) := if 256 <=? zlen s then Err DWFL_E_INVALID_DWARF else Ok (v :: s).
Definition pop (s : list Z) : outcome (Z * list Z) := match s with [] => Err DWFL_E_INVALID_DWARF | v :: r => Ok (v, r) end.

(* bsearch of the C library over the offsets: the position of an entry equal to the key
   (frame_unwind.c:92-98 bra_compar compares) *)
Fixpoint bsearch (fuel : nat) (key : Z) (ops : list op) (l u : Z) : option Z :=
  match fuel with
  | O => None
  | S k =>
    if u <=? l then None
    else let i := (l + u) / 2 in
         match znth ops i with
         | None => None
         | Some o => if key <? o_off o then bsearch k key ops l i
                     else if o_off o <? key then bsearch k key ops (i + 1) u
                     else Some i
         end
  end.
(* frame_unwind.c:446-459.  Going to the first operation forms the pointer before the array, which is taken
   to work. *)
Definition branch (ops : list op) (o : op) : outcome Z :=
  match bsearch (S (length ops)) (u64 (o_off o + 3 + s16 (o_num o))) ops 0 (zlen ops) with
  | Some i => Ok i
  | None => Err DWFL_E_INVALID_DWARF
  end.

(* frame_unwind.c:309-321, 496-503 *)
Definition read_word (m : mach) (a : Z) : outcome Z :=
  match h_read m with
  | None => Err DWFL_E_INVALID_ARGUMENT
  | Some rd => match rd a with Some v => Ok v | None => Err CALLBACK_FAILED end
  end.
(* frame_unwind.c:322-341, the class being that of the frame's file; the mask is computed in int *)
Definition narrow (m : mach) (class32 : bool) (n v : Z) : outcome Z :=
  let addr_bytes := if class32 then 4 else 8 in
  if addr_bytes <? n then Err DWFL_E_INVALID_DWARF
  else if h_big m then Ok (if n =? 0 then 0 else Z.shiftr v ((addr_bytes - n) * 8))
  else if n <? 8 then (if 32 <=? n * 8 then UB else Ok (Z.land v (Z.shiftl 1 (n * 8) - 1)))
  else Ok v.

(* frame_unwind.c:348-366; arithmetic of int64_t that overflows is UB *)
Definition unop (o : op) (v : Z) : outcome Z :=
  if o_atom o =? 25 then (if s64 v =? - two63 then UB else Ok (u64 (Z.abs (s64 v))))
  else if o_atom o =? 31 then (if s64 v =? - two63 then UB else Ok (u64 (- s64 v)))
  else if o_atom o =? 32 then Ok (u64 (Z.lnot v))
  else Ok (u64 (v + o_num o)).
(* frame_unwind.c:367-434: v1 op v2.  A shift by 64 or more is UB; the shift of a negative number to the
   right repeats the sign. *)
Definition binop (x v1 v2 : Z) : outcome Z :=
  let flag (b : bool) := Ok (if b then 1 else 0) in
  if x =? 26 then Ok (Z.land v1 v2)
  else if x =? 27 then
    (if v2 =? 0 then Err DWFL_E_INVALID_DWARF
     else if (s64 v1 =? - two63) && (s64 v2 =? -1) then UB else Ok (u64 (Z.quot (s64 v1) (s64 v2))))
  else if x =? 28 then Ok (u64 (v1 - v2))
  else if x =? 29 then (if v2 =? 0 then Err DWFL_E_INVALID_DWARF else Ok (v1 mod v2))
  else if x =? 30 then Ok (u64 (v1 * v2))
  else if x =? 33 then Ok (Z.lor v1 v2)
  else if x =? 34 then Ok (u64 (v1 + v2))
  else if x =? 36 then (if 64 <=? v2 then UB else Ok (u64 (Z.shiftl v1 v2)))
  else if x =? 37 then (if 64 <=? v2 then UB else Ok (Z.shiftr v1 v2))
  else if x =? 38 then (if (s64 v2 <? 0) || (64 <=? s64 v2) then UB else Ok (u64 (Z.shiftr (s64 v1) (s64 v2))))
  else if x =? 39 then Ok (Z.lxor v1 v2)
  else if x =? 44 then flag (s64 v1 <=? s64 v2)
  else if x =? 42 then flag (s64 v2 <=? s64 v1)
  else if x =? 41 then flag (s64 v1 =? s64 v2)
  else if x =? 45 then flag (s64 v1 <? s64 v2)
  else if x =? 43 then flag (s64 v2 <? s64 v1)
  else flag (negb (s64 v1 =? s64 v2)).

(* frame_unwind.c:176-486: the operation at position pc; the new position, the new stack and the new
   is_location.  cfa is what DW_OP_call_frame_cfa finds; fr is the class of the frame's file, None for
   the null pointer that is passed while the CFA is computed. *)
Definition step (m : mach) (fr : option bool) (cfa : outcome Z) (ops : list op) (pc : Z) (o : op) (s : list Z) (loc : bool) : outcome (Z * list Z * bool) :=
  let x := o_atom o in
  let next (e : outcome (list Z)) := s <- e ;; Ok (pc + 1, s, loc) in
  if in_range 48 79 x then next (push (x - 48) s)
  else if x =? 3 then next (push (u64 (o_num o + h_bias m)) s)
  else if x =? 241 then Err DWFL_E_UNSUPPORTED_DWARF
  else if in_range 8 17 x then next (push (o_num o) s)
  else if in_range 80 111 x then next (v <- get_reg (h_ebl m) (h_regs m) (x - 80) ;; push v s)
  else if x =? 144 then next (v <- get_reg (h_ebl m) (h_regs m) (o_num o) ;; push v s)
  else if in_range 112 143 x then next (v <- get_reg (h_ebl m) (h_regs m) (x - 112) ;; push (u64 (v + o_num o)) s)
  else if x =? 146 then next (v <- get_reg (h_ebl m) (h_regs m) (o_num o) ;; push (u64 (v + o_num2 o)) s)
  else if x =? 18 then next (' (v, s) <- pop s ;; s <- push v s ;; push v s)
  else if x =? 19 then next (' (_, s) <- pop s ;; Ok s)
  else if x =? 21 then
    next (if zlen s <=? o_num o then Err DWFL_E_INVALID_DWARF
          else match znth s (o_num o) with Some v => push v s | None => UB end)
  else if x =? 20 then next (' (v1, s) <- pop s ;; ' (v2, s) <- pop s ;; s <- push v2 s ;; s <- push v1 s ;; push v2 s)
  else if x =? 22 then next (' (v1, s) <- pop s ;; ' (v2, s) <- pop s ;; s <- push v1 s ;; push v2 s)
  else if x =? 23 then next (' (v1, s) <- pop s ;; ' (v2, s) <- pop s ;; ' (v3, s) <- pop s ;; s <- push v1 s ;; s <- push v3 s ;; push v2 s)
  else if (x =? 6) || (x =? 148) then
    next (match h_read m with
          | None => Err DWFL_E_INVALID_ARGUMENT
          | Some _ =>
            ' (a, s) <- pop s ;; v <- read_word m a ;;
            v <- (if x =? 148 then match fr with None => UB | Some c32 => narrow m c32 (o_num o) v end else Ok v) ;;
            push v s
          end)
  else if among [25; 31; 32; 35] x then next (' (v, s) <- pop s ;; v <- unop o v ;; push v s)
  else if in_range 26 46 x && negb (x =? 40) then next (' (v2, s) <- pop s ;; ' (v1, s) <- pop s ;; v <- binop x v1 v2 ;; push v s)
  else if x =? 40 then
    ' (v, s) <- pop s ;; if v =? 0 then Ok (pc + 1, s, loc) else i <- branch ops o ;; Ok (i, s, loc)
  else if x =? 47 then i <- branch ops o ;; Ok (i, s, loc)
  else if x =? 150 then next (Ok s)
  else if x =? 156 then
    match (c <- cfa ;; push c s) with
    | Ok s => Ok (pc + 1, s, true)
    | Err _ => Err DWFL_E_LIBDW
    | UB => UB
    | Fuel => Fuel
    end
  else if x =? 159 then Ok (pc + 1, s, false)
  else Err DWFL_E_INVALID_DWARF.

(* frame_unwind.c:488-505 *)
Definition finish (m : mach) (s : list Z) (loc : bool) : outcome Z :=
  ' (v, _) <- pop s ;; if loc then read_word m v else Ok v.
(* frame_unwind.c:169-504 the loop, with the number of steps that are left: 0x1000 in the beginning *)
Fixpoint run (steps : nat) (m : mach) (fr : option bool) (cfa : outcome Z) (ops : list op) (pc : Z) (s : list Z) (loc : bool) : outcome Z :=
  match znth ops pc with
  | None => finish m s loc
  | Some o =>
    match steps with
    | O => Err DWFL_E_INVALID_DWARF
    | S k => ' (pc, s, loc) <- step m fr cfa ops pc o s loc ;; run k m fr cfa ops pc s loc
    end
  end.
Definition start (m : mach) (fr : option bool) (cfa : outcome Z) (ops : list op) : outcome Z :=
  match ops with
  | [] => Err DWFL_E_INVALID_DWARF
  | _ => run (Z.to_nat 4096) m fr cfa ops 0 [] false
  end.
(* frame_unwind.c:146-508 expr_eval with the frame null: DW_OP_call_frame_cfa fails *)
Definition eval_cfa (m : mach) (ops : list op) : outcome Z := start m None (Err DWFL_E_LIBDW) ops.
(* expr_eval for a frame: the class of its file and what dwarf_frame_cfa answers (cfa_ops) *)
Definition eval (m : mach) (class32 : bool) (cfa_ops : outcome (list op)) (ops : list op) : outcome Z :=
  start m (Some class32) (l <- cfa_ops ;; eval_cfa m l) ops.
