(* libdwfl/dwfl_frame.c, frame_unwind.c:727-784, dwfl_frame_pc.c, dwfl_frame_regs.c and the backends' unwinders: walking
   the frames of a thread.  malloc never fails; the error codes are not modelled.  Registers, memory and modules do not
   change while a thread is unwound.  A failed assertion is the outcome UB. *)
From Verif Require Import Base DwModel CfiModel NcfiModel FdeModel FrameModel LocModel EvalModel UnwindModel.

(* libdwflP.h:262-290 Dwfl_Frame without the links *)
Record fr := Fr { x_regs : regs; x_pc : pc_state; x_signal : bool; x_initial : bool }.
(* Call frame information of a module (dwfl_module_eh_cfi, dwfl_module_dwarf_cfi) with what the backend says about it,
   and the bias of the module.  Simplification: every lookup starts with the same cache; the answer does not depend on
   earlier lookups (C60). *)
Record src := Src { q_cfi : cfi; q_table : option table; q_cache : cache; q_abi : bytes; q_abidaf : Z; q_same : bool; q_bias : Z }.
(* What a backend's unwinder leaves: the registers of the new frame, its pc if it was set, and signal_frame; None if
   it returned false *)
Definition back : Type := option (regs * option Z * bool).
(* The process: the backend, memory_read, the host's byte order, ebl_normalize_pc, the return address register of
   ebl_abi_cfi (None if there is none), dwfl_addrmodule with the two CFI sources of the module, and the unwinder of
   the backend, if it has one. *)
Record world := World {
  d_ebl : ebl; d_read : option (Z -> option Z); d_big : bool; d_norm : Z -> Z; d_ra : option Z;
  d_module : Z -> option (option src * option src); d_back : option (Z -> regs -> outcome back) }.

(* ---------------------------------------------------------------- the backends' unwinders *)
(* frame_unwind.c:702-715 getfunc and readfunc: readfunc does not test whether there is a memory_read *)
Definition read_mem (rd : option (Z -> option Z)) (a : Z) : outcome (option Z) := match rd with Some f => Ok (f (u64 a)) | None => UB end.
Definition or0 (o : option Z) : Z := match o with Some v => v | None => 0 end.
(* backends/x86_64_unwind.c:41-84 *)
Definition x86_64_unwind (b : ebl) (rd : option (Z -> option Z)) (pc : Z) (g : regs) : outcome back :=
  ofp <- reg_get b g 6 ;;
  match ofp with
  | None => Ok None
  | Some fp =>
    if fp =? 0 then Ok None
    else osp <- reg_get b g 7 ;;
         opf <- read_mem rd fp ;;
         oret <- read_mem rd (fp + 8) ;;
         match oret with
         | None => Ok None
         | Some ret =>
           o1 <- reg_set b (new_regs b) 6 (or0 opf) ;;
           match o1 with
           | None => Ok None
           | Some g1 =>
             let fp := u64 (fp + 16) in
             o2 <- reg_set b g1 7 fp ;;
             match o2 with
             | None => Ok None
             | Some g2 => if fp <=? or0 osp then Ok None else Ok (Some (g2, Some ret, false))
             end
           end
         end
  end.
(* backends/i386_unwind.c:46-83 *)
Definition i386_unwind (b : ebl) (rd : option (Z -> option Z)) (pc : Z) (g : regs) : outcome back :=
  osp <- reg_get b g 4 ;;
  match osp with
  | None => Ok None
  | Some sp =>
    ofp <- reg_get b g 5 ;;
    match ofp with
    | None => Ok None
    | Some fp =>
      if (fp =? 0) || (sp =? 0) || (fp <? sp) then Ok None
      else oret <- read_mem rd (fp + 4) ;;
           match oret with
           | None => Ok None
           | Some ret =>
             if ret =? 0 then Ok None
             else let sp := u64 (fp + 8) in
                  ofp <- read_mem rd fp ;;
                  match ofp with
                  | None => Ok None
                  | Some fp =>
                    if (fp =? 0) || (fp <=? sp) then Ok None
                    else o1 <- reg_set b (new_regs b) 4 sp ;;
                         match o1 with
                         | None => Ok None
                         | Some g1 =>
                           o2 <- reg_set b g1 5 fp ;;
                           match o2 with
                           | None => Ok None
                           | Some g2 => Ok (Some (g2, Some ret, false))
                           end
                         end
                  end
           end
    end
  end.
(* a call of setfunc whose result is not used *)
Definition try_set (b : ebl) (g : regs) (r v : Z) : outcome regs := o <- reg_set b g r v ;; Ok (match o with Some g => g | None => g end).
(* backends/ppc64_unwind.c:46-76 *)
Definition ppc64_unwind (b : ebl) (rd : option (Z -> option Z)) (pc : Z) (g : regs) : outcome back :=
  osp <- reg_get b g 1 ;;
  olr <- reg_get b g 65 ;;
  match olr with
  | None => Ok None
  | Some lr =>
    if lr =? 0 then Ok None
    else onsp <- read_mem rd (or0 osp) ;;
         onlr <- read_mem rd (or0 onsp + 16) ;;
         g1 <- try_set b (new_regs b) 1 (or0 onsp) ;;
         g2 <- try_set b g1 65 (or0 onlr) ;;
         if or0 onsp <=? or0 osp then Ok None else Ok (Some (g2, Some lr, false))
  end.
(* backends/aarch64_unwind.c:45-83 *)
Definition aarch64_unwind (b : ebl) (rd : option (Z -> option Z)) (pc : Z) (g : regs) : outcome back :=
  olr <- reg_get b g 30 ;;
  match olr with
  | None => Ok None
  | Some lr =>
    if lr =? 0 then Ok None
    else ofp <- reg_get b g 29 ;;
         osp <- reg_get b g 31 ;;
         let fp := or0 ofp in
         onlr <- read_mem rd (fp + 8) ;;
         onfp <- read_mem rd fp ;;
         let nsp := u64 (fp + 16) in
         g1 <- try_set b (new_regs b) 30 (or0 onlr) ;;
         g2 <- try_set b g1 29 (or0 onfp) ;;
         g3 <- try_set b g2 31 nsp ;;
         if (fp =? 0) || (or0 osp <? nsp) then Ok (Some (g3, Some lr, false)) else Ok None
  end.

(* ---------------------------------------------------------------- one step *)
(* frame_unwind.c:742-760: one source of call frame information *)
Definition unwind_by (w : world) (st : fr) (pc : Z) (o : option src) : outcome (option fr) :=
  match o with
  | None => Ok None
  | Some q =>
    r <- handle_cfi (Mach (d_ebl w) (x_regs st) (d_read w) (d_big w) (q_bias q)) 0 (q_cfi q) (q_table q) (q_cache q) (q_abi q) (q_abidaf q) (q_same q) (u64 (pc - q_bias q)) ;;
    Ok (match r with Some u => Some (Fr (n_regs u) (n_pc u) (n_signal u) false) | None => None end)
  end.
(* frame_unwind.c:762-784 *)
Definition unwind_back (w : world) (st : fr) (pc : Z) : outcome (option fr) :=
  match d_back w with
  | None => Ok None
  | Some u =>
    r <- u pc (x_regs st) ;;
    match r with
    | None => Ok None
    | Some (g, Some p, s) => Ok (Some (Fr g (PcSet p) s false))
    | Some (_, None, _) => UB
    end
  end.
(* frame_unwind.c:727-784 __libdwfl_frame_unwind for a frame without unwound: the frame that becomes its unwound *)
Definition frame_step (w : world) (st : fr) : outcome (option fr) :=
  match x_pc st with
  | PcSet p =>
    let pc := d_norm w p in
    let pc := if negb (x_initial st) && negb (x_signal st) then u64 (pc - 1) else pc in
    r <- match d_module w pc with
         | None => Ok None
         | Some (eh, dw) =>
           r <- unwind_by w st pc eh ;;
           match r with Some f => Ok (Some f) | None => unwind_by w st pc dw end
         end ;;
    match r with Some f => Ok (Some f) | None => unwind_back w st pc end
  | _ => UB
  end.

(* ---------------------------------------------------------------- the thread *)
(* thread->unwound: the chain of the frames that there are, the current one first *)
Definition thread : Type := list fr.
(* frame_unwind.c:727-732: the unwound frame is made once *)
Definition frame_unwind (w : world) (th : thread) : outcome thread :=
  match th with
  | [] => UB
  | st :: _ :: _ => Ok th
  | [st] => o <- frame_step w st ;; Ok (match o with Some f => [st; f] | None => [st] end)
  end.
(* dwfl_frame_pc.c:35-63 dwfl_frame_pc of the current frame; with isactivation or without *)
Definition frame_pc (w : world) (th : thread) (act : bool) : outcome (Z * bool * thread) :=
  match th with
  | [] => UB
  | st :: _ =>
    match x_pc st with
    | PcSet p =>
      let pc := d_norm w p in
      if negb act then Ok (pc, false, th)
      else if x_initial st || x_signal st then Ok (pc, true, th)
      else th <- frame_unwind w th ;;
           Ok (pc, match th with _ :: f :: _ => match x_pc f with PcSet _ => x_signal f | _ => false end | _ => false end, th)
    | _ => UB
    end
  end.
(* What a callback does: it asks for the pc of the frame, calls dwfl_thread_getframes for the same thread, and returns
   a state of its own and a number. *)
Inductive act (A : Type) : Type :=
| Return (a : A) (code : Z)
| AskPc (activation : bool) (k : Z -> bool -> act A)
| AskFrames (k : Z -> act A).
Arguments Return {A}. Arguments AskPc {A}. Arguments AskFrames {A}.
(* dwfl_frame.c:414-419: dwfl_thread_getframes from inside a callback returns -1 *)
Fixpoint run {A} (w : world) (t : act A) (th : thread) : outcome (A * Z * thread) :=
  match t with
  | Return a code => Ok (a, code, th)
  | AskPc b k => ' (pc, x, th) <- frame_pc w th b ;; run w (k pc x) th
  | AskFrames k => match th with [] => UB | _ => run w (k (-1)) th end
  end.
(* dwfl_frame.c:447-478: the loop; the result has the callback's state, the number returned, the thread and how often
   thread_detach was called *)
Fixpoint frames_loop {A} (fuel : nat) (w : world) (cb : A -> act A) (th : thread) (a : A) : outcome (A * Z * thread * Z) :=
  match fuel with
  | O => Fuel
  | S n =>
    ' (a, code, th) <- run w (cb a) th ;;
    if negb (code =? 0) then Ok (a, code, [], 1)
    else th <- frame_unwind w th ;;
         match th with
         | [] => UB
         | _ :: [] => Ok (a, -1, [], 1)
         | _ :: f :: r =>
           match x_pc f with
           | PcSet _ => frames_loop n w cb (f :: r) a
           | PcError => Ok (a, -1, [], 1)
           | PcUndefined => Ok (a, 0, [], 1)
           end
         end
  end.
(* dwfl_frame.c:36-67 state_fetch_pc: the register of the return address by the backend's default; the register is
   not tested for being known: reading an unknown one reads uninitialised memory *)
Definition fetch_pc (w : world) (st : fr) : outcome (option fr) :=
  match x_pc st with
  | PcSet _ => Ok (Some st)
  | PcUndefined => UB
  | PcError =>
    match d_ra w with
    | None => Ok None
    | Some ra =>
      if b_nregs (d_ebl w) <=? ra then Ok None
      else match znth (g_set (x_regs st)) (ra / 64), znth (g_val (x_regs st)) ra with
           | Some m, Some v => if Z.testbit m (ra mod 64) then Ok (Some (Fr (x_regs st) (PcSet (u64 (v + b_raoff (d_ebl w)))) (x_signal st) (x_initial st))) else UB
           | _, _ => UB
           end
    end
  end.
(* what set_initial_registers does (dwfl_frame_regs.c:35-63): dwfl_thread_state_registers for numbers and values, and
   dwfl_thread_state_register_pc *)
Inductive init := SetReg (regno v : Z) | SetPc (pc : Z).
(* dwfl_thread_state_registers with one value; the callback returns false when it fails, as all in the library do *)
Fixpoint set_initial (b : ebl) (l : list init) (st : fr) : outcome (option fr) :=
  match l with
  | [] => Ok (Some st)
  | SetReg r v :: l => o <- reg_set b (x_regs st) (u32 r) v ;; match o with Some g => set_initial b l (Fr g (x_pc st) (x_signal st) (x_initial st)) | None => Ok None end
  | SetPc p :: l => set_initial b l (Fr (x_regs st) (PcSet p) (x_signal st) (x_initial st))
  end.
(* dwfl_frame.c:408-478 dwfl_thread_getframes; inits is None if set_initial_registers returns false *)
Definition getframes {A} (fuel : nat) (w : world) (inits : option (list init)) (cb : A -> act A) (th : thread) (a : A) : outcome (A * Z * thread * Z) :=
  match th with
  | _ :: _ => Ok (a, -1, th, 0)
  | [] =>
    if b_nregs (d_ebl w) =? 0 then Ok (a, -1, [], 0)
    else match inits with
         | None => Ok (a, -1, [], 0)
         | Some l =>
           o <- set_initial (d_ebl w) l (Fr (new_regs (d_ebl w)) PcError false true) ;;
           match o with
           | None => Ok (a, -1, [], 0)
           | Some st =>
             o <- fetch_pc w st ;;
             match o with
             | None => Ok (a, -1, [], 1)
             | Some st => frames_loop fuel w cb [st] a
             end
           end
         end
  end.
