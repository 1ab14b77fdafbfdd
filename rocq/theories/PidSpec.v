(* What reading a live process and attaching to it have to give. *)
From Verif Require Import Base PidModel.

(* the bytes b are those of memory at address a; n bytes at a can be read; readable or not by pages *)
Definition bytes_at (mem : pmem) (a : Z) (b : bytes) : Prop := forall k, 0 <= k < zlen b -> mem (a + k) = znth b k.
Definition readable (mem : pmem) (a n : Z) : Prop := forall k, 0 <= k < n -> mem (a + k) <> None.
Definition by_pages (mem : pmem) : Prop := forall a, mem a = None <-> mem (a - a mod 4096) = None.
(* all bytes are bytes *)
Definition byte_mem (mem : pmem) : Prop := forall a x, mem a = Some x -> 0 <= x < 256.
(* a list of results is right for a history, one for each read, with the memory of that time *)
Fixpoint right (good : pmem -> Z -> option Z -> Prop) (ops : list pop) (mem : pmem) (res : list (option Z)) : Prop :=
  match ops, res with
  | [], [] => True
  | Rd a :: r, v :: res => good mem a v /\ right good r mem res
  | Turn m :: r, res => right good r m res
  | _, _ => False
  end.
Fixpoint all_mem (P : pmem -> Prop) (ops : list pop) : Prop :=
  match ops with [] => True | Rd _ :: r => all_mem P r | Turn m :: r => P m /\ all_mem P r end.

(* is the thread traced after these requests; b: before.  A request that is refused is not one *)
Fixpoint traced (b : bool) (t : list ptr) : bool :=
  match t with
  | [] => b
  | PAttach :: r => traced true r
  | PDetach _ :: r => traced false r
  | _ :: r => traced b r
  end.
(* signals given to the thread by letting it go on *)
Fixpoint given (t : list ptr) : list Z :=
  match t with [] => [] | PCont s :: r => if s =? 0 then given r else s :: given r | PDetach s :: r => if s =? 0 then given r else s :: given r | _ :: r => given r end.
