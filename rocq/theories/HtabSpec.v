(* Specification of a hash table: a finite map kept as a list of entries in
   order of insertion.  A key is a hash value together with whatever the
   comparison function [same] looks at. *)
From Verif Require Import Base.

Section HtabSpec.
Variable TYPE : Type.
Variable same : TYPE -> TYPE -> bool.

Definition hits (h : Z) (v : TYPE) (e : Z * TYPE) : bool := (fst e =? h) && same (snd e) v.

Definition map_find (m : list (Z * TYPE)) (h : Z) (v : TYPE) : option TYPE :=
  option_map snd (find (hits h v) m).

(* insert keeps an existing entry and reports -1 *)
Definition map_insert (m : list (Z * TYPE)) (h : Z) (d : TYPE) : list (Z * TYPE) * Z :=
  match map_find m h d with
  | Some _ => (m, -1)
  | None => (m ++ [(h, d)], 0)
  end.

(* overwrite replaces an existing entry *)
Definition map_overwrite (m : list (Z * TYPE)) (h : Z) (d : TYPE) : list (Z * TYPE) * Z :=
  match map_find m h d with
  | Some _ => (map (fun e => if hits h d e then (h, d) else e) m, 0)
  | None => (m ++ [(h, d)], 0)
  end.

(* Histories of operations and what the caller observes. *)
Inductive op :=
| Insert (h : Z) (d : TYPE)
| Overwrite (h : Z) (d : TYPE)
| Find (h : Z) (v : TYPE).
Inductive answer := Code (c : Z) | Found (d : option TYPE).

(* The tables cannot tell hash value 0 from hash value 1. *)
Definition key_hash (h : Z) : Z := if h =? 0 then 1 else h.

Fixpoint map_run (ops : list op) (m : list (Z * TYPE)) : list answer * list (Z * TYPE) :=
  match ops with
  | [] => ([], m)
  | Insert h d :: r =>
      let '(m', c) := map_insert m (key_hash h) d in
      let '(a, m'') := map_run r m' in (Code c :: a, m'')
  | Overwrite h d :: r =>
      let '(m', c) := map_overwrite m (key_hash h) d in
      let '(a, m'') := map_run r m' in (Code c :: a, m'')
  | Find h v :: r =>
      let '(a, m'') := map_run r m in (Found (map_find m (key_hash h) v) :: a, m'')
  end.

Definition hash_of (o : op) : Z :=
  match o with Insert h _ | Overwrite h _ | Find h _ => h end.
End HtabSpec.

Arguments Insert {TYPE} _ _.
Arguments Overwrite {TYPE} _ _.
Arguments Find {TYPE} _ _.
Arguments Code {TYPE} _.
Arguments Found {TYPE} _.

(* The number of operations of a history that store something. *)
Definition stores {TYPE : Type} (ops : list (op TYPE)) : Z :=
  zlen (filter (fun o => match o with Find _ _ => false | _ => true end) ops).
