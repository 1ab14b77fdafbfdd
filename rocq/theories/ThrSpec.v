(* What the threads, registers and words of a core file are. *)
From Coq Require Import Sorting.Sorted.
From Verif Require Import Base CoreModel ThrModel.

(* the number of n bytes at an offset of a description *)
Definition at_offset (big : bool) (d : bytes) (off n : Z) : Z := (if big then be_value else le_value) (zsub d off n).
(* the threads: every NT_PRSTATUS note with a pid, in order, up to the first note that is damaged; with the number of the note *)
Definition thread_of (big : bool) (n : tnote) : option Z :=
  if t_known n && (t_type n =? 1) then match find i_pid (t_items n) with Some i => Some (s32 (at_offset big (t_desc n) (i_off i) 4)) | None => None end else None.
Fixpoint thread_list (big : bool) (l : list (option tnote)) (i : nat) : list (Z * nat) :=
  match l with
  | Some n :: r => match thread_of big n with Some t => (t, i) :: thread_list big r (S i) | None => thread_list big r (S i) end
  | _ => []
  end.
(* the pid is inside the description, as libebl sees to by the size of the note *)
Definition whole (n : tnote) : Prop := forall i, In i (t_items n) -> 0 <= i_off i /\ i_off i + 8 <= zlen (t_desc n).
Definition notes_ok (big : bool) (notes : list (option tnote)) : Prop := forall n, In (Some n) notes -> whole n.

(* to visit a list until the callback says other than 0 *)
Fixpoint visit {A : Type} (cb : Z -> nat -> A -> Z * A) (l : list (Z * nat)) (a : A) : Z * A :=
  match l with
  | [] => (0, a)
  | (t, i) :: r => let (v, a) := cb t i a in if v =? 0 then visit cb r a else (v, a)
  end.
(* a callback that does not itself go through the threads *)
Definition plain {A : Type} (cb : Z -> nat -> A -> Z * A) (t : Z) (i : nat) (s : nat * A) : tout (nat * A) :=
  let (v, a) := cb t i (snd s) in Tret v (fst s, a).

(* register locations: how many registers, their distance, and which are covered *)
Definition usable (l : tloc) : Prop := l_bits l = 32 \/ l_bits l = 64.
Definition regs_in (l : tloc) : Z := if l_count l =? 0 then 1 else l_count l.
Definition place (base : Z) (l : tloc) (r : Z) : Z := base + l_off l + (r - l_regno l) * (l_bits l / 8 + l_pad l).
Definition covers (l : tloc) (r : Z) : Prop := usable l /\ l_regno l <= r < l_regno l + regs_in l.
Definition apart (nregs : Z) (ls : list tloc) : Prop := StronglySorted (fun a b => forall r, r < nregs -> ~ (covers a r /\ covers b r)) ls.
