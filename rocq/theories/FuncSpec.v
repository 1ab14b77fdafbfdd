(* The functions and inlined instances of a unit as lists over its tree of entries, and the
   variable that a name stands for in nested scopes. *)
From Verif Require Import Base ScopeModel ScopeSpec.

(* the entries of a tree in order, an entry before what is below it; what is below entries
   that are not entered is left out, and so are these *)
Fixpoint entries (enter : Z -> bool) (f : forest) : list Z :=
  match f with
  | FNil => []
  | FNode d b n => (if enter d then d :: entries enter b else []) ++ entries enter n
  end.
(* in a unit in C only functions, blocks and inlined functions are entered *)
Definition entered (w : view) (lang : Z) (d : Z) : bool :=
  if existsb (Z.eqb lang) [1; 2; 12; 29] then existsb (Z.eqb (v_tag w d)) [46; 11; 29] else true.
(* an entry that defines a function *)
Definition defines (w : view) (declared : Z -> bool) (d : Z) : bool := (v_tag w d =? 46) && negb (declared d).
Definition functions (w : view) (declared : Z -> bool) (lang : Z) (f : forest) : list Z := filter (defines w declared) (entries (entered w lang) f).

(* entries shown to a callback until it returns something else than 0: its state, what it
   returned at last, and the entry that it did not want to go on from *)
Fixpoint show {B} (cb : B -> Z -> B * Z) (l : list Z) (b : B) : B * Z * Z :=
  match l with
  | [] => (b, 0, 0)
  | d :: l => let '(b, r) := cb b d in if r =? 0 then show cb l b else (b, r, d)
  end.
(* what is behind an entry in a list *)
Fixpoint behind (x : Z) (l : list Z) : list Z := match l with [] => [] | d :: l => if d =? x then l else behind x l end.
(* the inlined instances of a function; origin: what the entry is an instance of *)
Definition instances (w : view) (origin : Z -> option Z) (func : Z) (f : forest) : list Z :=
  filter (fun d => (v_tag w d =? 29) && match origin d with Some o => o =? func | None => false end) (entries (fun _ => true) f).

(* an entry and its siblings; where a sibling cannot be had they end *)
Inductive row (w : view) : Z -> list Z -> Prop :=
| row_last : forall d, (forall d', v_sib w d <> Got d') -> row w d [d]
| row_more : forall d d' l, v_sib w d = Got d' -> row w d' l -> row w d (d :: l).
(* the entries right in a scope *)
Definition inside (w : view) (s : Z) (l : list Z) : Prop := if v_haskids w s then exists d, v_kid w s = Got d /\ row w d l else l = [].
(* the first variable or parameter of that name *)
Definition named (w : view) (name : Z -> option bytes) (n : bytes) (d : Z) : Prop := (v_tag w d = 52 \/ v_tag w d = 5) /\ name d = Some n.
Definition first_named (w : view) (name : Z -> option bytes) (n : bytes) (l : list Z) (o : option Z) : Prop :=
  match o with
  | None => Forall (fun d => ~ named w name n d) l
  | Some d => exists l1 l2, l = l1 ++ d :: l2 /\ named w name n d /\ Forall (fun d => ~ named w name n d) l1
  end.
(* the places in the list of scopes that have one, with the scope and what is of that name *)
Fixpoint places (i : Z) (scopes : list Z) (os : list (option Z)) : list (Z * Z * Z) :=
  match scopes, os with
  | s :: scopes, Some d :: os => (i, s, d) :: places (i + 1) scopes os
  | _ :: scopes, None :: os => places (i + 1) scopes os
  | _, _ => []
  end.
(* a number asked for is the one of the attribute *)
Definition number_is (udata : Z -> Z -> option Z) (d at_ n : Z) : Prop := 0 < n -> exists i, udata d at_ = Some i /\ s32 i = n.
(* the file of the declaration is the one asked for: it has the name, or it begins with it and
   there is a slash as far from its end as the name is long *)
Definition file_is (m file : bytes) : Prop := file = m \/ exists rest, file = m ++ rest /\ znth file (zlen file - zlen m - 1) = Some 47.
(* calls with a callback that keeps what it is shown, each with the token of the one before, until 0 is returned *)
Fixpoint again (getfuncs : Z -> list Z -> outcome (list Z * Z)) (n : nat) (token : Z) (seen : list Z) : option (list Z) :=
  match n with
  | O => None
  | S n => match getfuncs token seen with Ok (seen, r) => if r =? 0 then Some seen else again getfuncs n r seen | _ => None end
  end.
Definition keeps (stop : list Z -> Z -> bool) (seen : list Z) (d : Z) : list Z * Z := (seen ++ [d], if stop seen d then 1 else 0).
(* what is of the name is declared where it was asked for *)
Definition wanted (udata : Z -> Z -> option Z) (srcfiles : Z -> option (list bytes)) (file : option bytes) (line col : Z) (s d : Z) : Prop :=
  match file with
  | None => True
  | Some m => exists i files f, udata d 58 = Some i /\ srcfiles s = Some files /\ znth files i = Some f /\ file_is m f /\ number_is udata d 59 line /\ number_is udata d 57 col
  end.
