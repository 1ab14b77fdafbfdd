(* Model of the threads of a core file: libdwfl/linux-core-attach.c and the traversal in libdwfl/dwfl_frame.c.
   What libebl says about a note is part of the note.  Notes are numbered: an offset in the note data is the number of a note; a note that
   gelf_getnote refuses is None.  malloc is taken to work.  Numbers of registers are those of the backend. *)
From Verif Require Import Base CoreModel.

(* libebl.h Ebl_Core_Item: is it the pid, is it the pc, its offset *)
Record titem := Titem { i_pid : bool; i_pc : bool; i_off : Z }.
(* libebl.h Ebl_Register_Location *)
Record tloc := Tloc { l_bits : Z; l_regno : Z; l_count : Z; l_off : Z; l_pad : Z; l_pc : bool }.
(* a note with what ebl_core_note says of it; t_known is its result *)
Record tnote := Tnote { t_known : bool; t_type : Z; t_items : list titem; t_regoff : Z; t_locs : list tloc; t_desc : bytes }.
Definition NT_PRSTATUS : Z := 1.
Definition NT_PRPSINFO : Z := 3.

Section threads.
Variables (big : bool) (notes : list (option tnote)).

(* the reads of 4 and 8 bytes with their conversions; outside the description is UB, here None *)
Definition num (d : bytes) (off n : Z) : option Z :=
  if (0 <=? off) && (off + n <=? zlen d) then Some ((if big then be_value else le_value) (zsub d off n)) else None.

(* linux-core-attach.c:139-158: the pid in a note of a type *)
Definition note_pid (type : Z) (n : tnote) : option (option Z) :=
  if negb (t_known n) then None
  else if negb (t_type n =? type) then None
  else match find i_pid (t_items n) with
       | None => None
       | Some i => Some (match num (t_desc n) (i_off i) 4 with Some v => Some (s32 v) | None => None end)
       end.

(* linux-core-attach.c:98-164 core_next_thread from the note [pos] on: the pid, the number of its note and the next position;
   0 at the end.  None for UB *)
Fixpoint scan_notes (l : list (option tnote)) (pos : nat) : option (Z * nat * nat) :=
  match l with
  | [] => Some (0, pos, pos)
  | None :: _ => Some (0, pos, O)
  | Some n :: r =>
      match note_pid NT_PRSTATUS n with
      | None => scan_notes r (S pos)
      | Some None => None
      | Some (Some tid) => Some (tid, pos, S pos)
      end
  end.
Definition next_thread (pos : nat) : option (Z * nat * nat) := scan_notes (skipn pos notes) pos.

(* linux-core-attach.c:376-411 dwfl_core_file_attach: the pid of the process, -1 if there is none *)
Fixpoint core_pid (l : list (option tnote)) : option Z :=
  match l with
  | Some n :: r => match note_pid NT_PRPSINFO n with None => core_pid r | Some x => x end
  | _ => Some (-1)
  end.

Inductive tout (A : Type) := Tret (v : Z) (x : A) | Tub | Tfuel.
Arguments Tret {A}. Arguments Tub {A}. Arguments Tfuel {A}.

(* dwfl_frame.c:259-311 dwfl_getthreads.  The state is the position core_arg->thread_note_offset, which the callback may change by calls of its own,
   and a state of the user.  The callback has the pid and the note of the thread *)
Section traverse.
Variables (A : Type) (cb : Z -> nat -> nat * A -> tout (nat * A)).
Fixpoint threads_loop (k : nat) (s : nat * A) : tout (nat * A) :=
  match k with
  | O => Tfuel
  | S k =>
      match next_thread (fst s) with
      | None => Tub
      | Some (tid, note, pos) =>
          let s := (pos, snd s) in
          if tid <? 0 then Tret (-1) s
          else if tid =? 0 then Tret 0 s
          else match cb tid note s with
               | Tret 0 s => threads_loop k s
               | r => r
               end
      end
  end.
(* linux-core-attach.c:112-115: a traversal starts at the first note *)
Definition getthreads (k : nat) (s : nat * A) : tout (nat * A) := threads_loop k (O, snd s).
End traverse.

(* dwfl_frame.c:313-380 getthread without a get_thread callback: the state of the traversal is that of the user and oa->seen, oa->ret *)
Definition getthread (A : Type) (cb : Z -> nat -> nat * A -> tout (nat * A)) (tid : Z) (k : nat) (s : nat * A) : tout (nat * A) :=
  let one (t : Z) (note : nat) (s : nat * (A * option Z)) : tout (nat * (A * option Z)) :=
    let '(pos, (a, seen)) := s in
    match seen with
    | None => if t =? tid then
                match cb t note (pos, a) with
                | Tret v (pos, a) => Tret 1 (pos, (a, Some v))
                | Tub => Tub | Tfuel => Tfuel end
              else Tret 0 (pos, (a, None))
    | Some _ => Tret 0 s
    end in
  match getthreads (A * option Z) one k (fst s, (snd s, None)) with
  | Tret e (pos, (a, seen)) =>
      match seen with
      | Some v => if e =? 1 then Tret v (pos, a) else Tret e (pos, a)
      | None => if e =? 0 then Tret (-1) (pos, a) else Tret e (pos, a)
      end
  | Tub => Tub | Tfuel => Tfuel
  end.

(* linux-core-attach.c:222-290: registers that are set, and the pc *)
Record rst := Rst { r_regs : list (Z * Z); r_pc : option Z }.
Definition reg_of (s : rst) (r : Z) : option Z := match find (fun p => fst p =? r) (r_regs s) with Some p => Some (snd p) | None => None end.
Variable (nregs : Z).
(* one location: register numbers from regno on, [at] is reg_desc *)
Fixpoint one_loc (n : nat) (regno at_ : Z) (l : tloc) (d : bytes) (s : rst) : option rst :=
  match n with
  | O => Some s
  | S n =>
      if (regno <? nregs) && (match reg_of s regno with Some _ => true | None => false end) then one_loc n (regno + 1) at_ l d s
      else match num d at_ (l_bits l / 8) with
           | None => None
           | Some v =>
               let s := if regno <? nregs then Rst ((regno, v) :: r_regs s) (r_pc s) else s in
               let s := if l_pc l then Rst (r_regs s) (Some v) else s in
               one_loc n (regno + 1) (at_ + l_bits l / 8 + l_pad l) l d s
           end
  end.
Fixpoint all_locs (ls : list tloc) (base : Z) (d : bytes) (s : rst) : option rst :=
  match ls with
  | [] => Some s
  | l :: r =>
      if negb ((l_bits l =? 32) || (l_bits l =? 64)) then all_locs r base d s
      else match one_loc (Z.to_nat (if l_count l =? 0 then 1 else l_count l)) (l_regno l) (base + l_off l) l d s with
           | None => None
           | Some s => all_locs r base d s
           end
  end.
(* linux-core-attach.c:166-292 core_set_initial_registers for a thread that next_thread gave *)
Definition initial_registers (class32 : bool) (n : tnote) : option rst :=
  match find i_pc (t_items n) with
  | None => all_locs (t_locs n) (t_regoff n) (t_desc n) (Rst [] None)
  | Some i => match num (t_desc n) (i_off i) (if class32 then 4 else 8) with
              | None => None
              | Some v => all_locs (t_locs n) (t_regoff n) (t_desc n) (Rst [] (Some v)) end
  end.

(* linux-core-attach.c:53-96 core_memory_read, of [w] bytes; None for false *)
Variable (align : Z).
Fixpoint word_at (phdrs : list cph) (file : bytes) (w addr : Z) : option Z :=
  match phdrs with
  | [] => None
  | p :: r =>
      let start := c_vaddr p - c_vaddr p mod align in
      if negb (c_load p) || (addr <? start) || (round_up align (c_vaddr p + c_memsz p) <? u64 (addr + w)) then word_at r file w addr
      else num file (u64 (c_off p + addr - start)) w
  end.
End threads.
Arguments Tret {A}. Arguments Tub {A}. Arguments Tfuel {A}.
