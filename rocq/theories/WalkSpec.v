(* What walking the frames of a thread means: the callback sees the chain of frames, one after the other. *)
From Verif Require Import Base EvalModel EvalSpec UnwindModel WalkModel.

(* next f o says that unwinding the frame f gives o: a frame, or none.  norm is what the backend makes of a pc. *)
(* A frame is an activation (its pc is not behind a call) if it is the first one, a signal frame, or the next one is a
   signal frame. *)
Definition activation (next : fr -> option fr -> Prop) (f : fr) (x : bool) : Prop :=
  if x_initial f || x_signal f then x = true
  else exists o, next f o /\ x = match o with Some g => match x_pc g with PcSet _ => x_signal g | _ => false end | None => false end.
(* The callback t, called for the frame f, returns the state a and the number code. *)
Inductive gives {A : Type} (norm : Z -> Z) (next : fr -> option fr -> Prop) (f : fr) : act A -> A -> Z -> Prop :=
| gives_return : forall a code, gives norm next f (Return a code) a code
| gives_pc : forall p k a code, x_pc f = PcSet p -> gives norm next f (k (norm p) false) a code -> gives norm next f (AskPc false k) a code
| gives_activation : forall p x k a code, x_pc f = PcSet p -> activation next f x -> gives norm next f (k (norm p) x) a code -> gives norm next f (AskPc true k) a code
| gives_frames : forall k a code, gives norm next f (k (-1)) a code -> gives norm next f (AskFrames k) a code.
(* The walk from the frame f: it stops when the callback returns a number other than 0, which is the result; it ends
   with 0 at a frame whose caller has an undefined pc, and with -1 if there is no caller. *)
Inductive walk {A : Type} (norm : Z -> Z) (next : fr -> option fr -> Prop) (cb : A -> act A) : fr -> A -> A -> Z -> Prop :=
| walk_stop : forall f a a' code, gives norm next f (cb a) a' code -> code <> 0 -> walk norm next cb f a a' code
| walk_on : forall f g p a a' a2 code, gives norm next f (cb a) a' 0 -> next f (Some g) -> x_pc g = PcSet p ->
    walk norm next cb g a' a2 code -> walk norm next cb f a a2 code
| walk_end : forall f g a a', gives norm next f (cb a) a' 0 -> next f (Some g) -> x_pc g = PcUndefined -> walk norm next cb f a a' 0
| walk_fail : forall f o a a', gives norm next f (cb a) a' 0 -> next f o -> match o with Some g => x_pc g = PcError | None => True end -> walk norm next cb f a a' (-1).

(* The value of register n after the calls l: that of the last call for it; and the pc. *)
Fixpoint last_reg (b : ebl) (n : Z) (l : list init) (v : option Z) : option Z :=
  match l with
  | [] => v
  | SetReg r x :: l => last_reg b n l (match b_regno b n with Some k => if match b_regno b r with Some k' => k =? k' | None => false end then Some (if b_class32 b then x mod two32 else x) else v | None => v end)
  | SetPc _ :: l => last_reg b n l v
  end.
Fixpoint last_pc (l : list init) (v : option Z) : option Z :=
  match l with [] => v | SetReg _ _ :: l => last_pc l v | SetPc p :: l => last_pc l (Some p) end.
(* all calls are for registers of the backend *)
Definition settable (b : ebl) (l : list init) : Prop :=
  Forall (fun i => match i with SetReg r v => 0 <= r < two32 /\ is_u64 v /\ exists k, b_regno b r = Some k /\ k < b_nregs b | SetPc _ => True end) l.
(* a backend with registers *)
Definition backend_ok (b : ebl) : Prop := 0 < b_nregs b <= 192 /\ forall r k, b_regno b r = Some k -> 0 <= k.

(* ---------------------------------------------------------------- frames without call frame information *)
(* the backend has a place for the DWARF register r *)
Definition has_reg (b : ebl) (r : Z) : Prop := exists k, b_regno b r = Some k /\ k < b_nregs b.
(* the words of the memory are words of the class *)
Definition words (b : ebl) (rd : Z -> option Z) : Prop := forall a v, rd a = Some v -> 0 <= v < if b_class32 b then two32 else two64.
Definition value_or_0 (o : option Z) : Z := match o with Some v => v | None => 0 end.
(* in g exactly the registers of l are known, with their values *)
Definition exactly (b : ebl) (g : regs) (l : list (Z * Z)) : Prop :=
  (forall r v, In (r, v) l -> known b g r = Some v) /\
  (forall n, (forall r v, In (r, v) l -> b_regno b n <> b_regno b r) -> known b g n = None).
(* no endless chain of frames *)
Definition finite (b : ebl) (step : Z -> regs -> outcome back) : Prop :=
  ~ exists s : nat -> regs, regs_ok b (s O) /\ forall i, exists pc p x, step pc (s i) = Ok (Some (s (S i), p, x)).
