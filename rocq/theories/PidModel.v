(* Model of attaching to a live process: libdwfl/linux-pid-attach.c, for a host with words of 8 bytes.
   Memory of the process is a function from addresses to bytes that can be read.  malloc is taken to work. *)
From Verif Require Import Base.

Definition PG : Z := 4096.
Definition pmem := Z -> option Z.

(* what PTRACE_PEEKDATA and process_vm_readv copy: n bytes, if all can be read *)
Fixpoint fetch (mem : pmem) (a : Z) (n : nat) : option bytes :=
  match n with
  | O => Some []
  | S n => match mem a, fetch mem (a + 1) n with Some x, Some r => Some (x :: r) | _, _ => None end
  end.

Section host.
(* byte order of the host; whether there is process_vm_readv; whether the process is of 32 bits *)
Variables (big vm class32 : bool).
Definition word (b : bytes) : Z := if big then be_value b else le_value b.

(* linux-pid-attach.c:118-175 read_cached_memory.  The cache is None if there is none or its len is 0 *)
Definition cache := option (Z * bytes).
Definition read_cached (mem : pmem) (c : cache) (addr : Z) : option Z * cache :=
  if PG - 8 <? addr mod PG then (None, c)
  else
    let miss :=
      let base := addr - addr mod PG in
      match fetch mem base (Z.to_nat PG) with
      | None => (None, None)
      | Some b => (Some (word (zsub b (addr - base) 8)), Some (base, b))
      end in
    match c with
    | Some (ca, b) => if (ca <=? addr) && (addr - ca <? zlen b) then (Some (word (zsub b (addr - ca) 8)), c) else miss
    | None => miss
    end.

(* linux-pid-attach.c:188-236 pid_memory_read; None for false *)
Definition memory_read (mem : pmem) (c : cache) (addr : Z) : option Z * cache :=
  match (if vm then read_cached mem c addr else (None, c)) with
  | (Some v, c) => (Some v, c)
  | (None, c) =>
      if class32 then
        let lowered := (addr / 4) mod 2 =? 1 in
        let addr := if lowered then addr - 4 else addr in
        match fetch mem addr 8 with
        | None => (None, c)
        | Some b =>
            let v := word b in
            let v := if (if big then negb lowered else lowered) then v / 2 ^ 32 else v in
            (Some (v mod 2 ^ 32), c)
        end
      else match fetch mem addr 8 with None => (None, c) | Some b => (Some (word b), c) end
  end.

(* a history: reads while a thread is attached; and detaching, which lets the process run and write, and attaching again *)
Inductive pop := Rd (a : Z) | Turn (mem : pmem).
Fixpoint run (ops : list pop) (mem : pmem) (c : cache) : list (option Z) :=
  match ops with
  | [] => []
  | Rd a :: r => let (v, c) := memory_read mem c a in v :: run r mem c
  | Turn m :: r => run r m None   (* linux-pid-attach.c:177-183, 357-368: clear_cached_memory from pid_thread_detach *)
  end.
End host.

(* what is asked of the kernel *)
Inductive ptr := PAttach | PKill | PCont (sig : Z) | PDetach (sig : Z).
(* what waitpid says: stopped by a signal, or anything else *)
Inductive pwait := Wstop (sig : Z) | Wother.
Definition SIGSTOP : Z := 19.
Inductive pres := Pret (ok : bool) | Pwaits.

(* linux-pid-attach.c:92-113: each wait with whether the PTRACE_CONT after it works; Pwaits if there is nothing to wait for *)
Fixpoint attach_loop (evs : list (pwait * bool)) : pres * list ptr :=
  match evs with
  | [] => (Pwaits, [])
  | (Wother, _) :: _ => (Pret false, [PDetach 0])
  | (Wstop s, ok) :: r =>
      if s =? SIGSTOP then (Pret true, [])
      else if ok then let (v, t) := attach_loop r in (v, PCont s :: t)
      else (Pret false, [PCont s; PDetach 0])
  end.
(* linux-pid-attach.c:72-114 __libdwfl_ptrace_attach *)
Definition ptrace_attach (ok stopped : bool) (evs : list (pwait * bool)) : pres * list ptr :=
  if negb ok then (Pret false, [PAttach])
  else let (v, t) := attach_loop evs in (v, PAttach :: (if stopped then [PKill; PCont 0] else []) ++ t).

(* the frames of one thread: what the kernel does when it is attached, and whether the registers can be had.
   s_tid is pid_arg->tid_attached, s_stopped tid_was_stopped *)
Record frames_in := Fin { f_tid : Z; f_ok : bool; f_stopped : bool; f_evs : list (pwait * bool); f_regs : bool }.
Record sess := Sess { s_tid : Z; s_stopped : bool }.
Inductive fres := Fwalked | Ffail | Fassert | Fwaits.
(* linux-pid-attach.c:314-328 pid_set_initial_registers and 357-368 pid_thread_detach, as dwfl_frame.c:408-478 calls them:
   thread_detach follows in each case but that of set_initial_registers returning false *)
Definition frames (assume_stopped : bool) (s : sess) (f : frames_in) : fres * sess * list ptr :=
  if negb (s_tid s =? 0) then (Fassert, s, [])
  else
    let '(v, t, st) := if assume_stopped then (Pret true, [], s_stopped s) else let (v, t) := ptrace_attach (f_ok f) (f_stopped f) (f_evs f) in (v, t, if f_ok f then f_stopped f else s_stopped s) in
    match v with
    | Pwaits => (Fwaits, Sess 0 st, t)
    | Pret false => (Ffail, Sess 0 st, t)
    | Pret true =>
        if f_regs f then (Fwalked, Sess 0 st, t ++ (if assume_stopped then [] else [PDetach (if st then SIGSTOP else 0)]))
        else (Ffail, Sess (f_tid f) st, t)
    end.
