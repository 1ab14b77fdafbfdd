(* The entries of a unit as a tree, and what the scopes of an address or an entry are in
   it; written without looking at how the code walks. *)
From Verif Require Import Base ScopeModel.

(* entries side by side: an entry, what is below it, and those that follow it *)
Inductive forest := FNil | FNode (d : Z) (below next : forest).
Fixpoint fapp (f g : forest) : forest := match f with FNil => g | FNode d b n => FNode d b (fapp n g) end.

(* [after w i c f]: the siblings behind c form f.  [from w i c f]: c and its siblings form
   f.  The entry of an imported unit stands for the children of the unit it imports; i are
   the imports around, which must not be met again.  The children of entries that cannot
   own code or scopes do not count. *)
Inductive from (w : view) : list Z -> Z -> forest -> Prop :=
| from_entry : forall i c b n, v_tag w c <> TAG_imported_unit -> below w i c b -> after w i c n -> from w i c (FNode c b n)
| from_import : forall i c u c1 f n, v_tag w c = TAG_imported_unit -> v_import w c = Some u -> v_kid w u = Got c1 -> ~ In c i -> from w (c :: i) c1 f -> after w i c n -> from w i c (fapp f n)
| from_no_import : forall i c n, v_tag w c = TAG_imported_unit -> (forall u c1, v_import w c = Some u -> v_kid w u <> Got c1) -> after w i c n -> from w i c n
with after (w : view) : list Z -> Z -> forest -> Prop :=
| after_end : forall i c, v_sib w c = NoMore -> after w i c FNil
| after_next : forall i c c1 f, v_sib w c = Got c1 -> from w i c1 f -> after w i c f
with below (w : view) : list Z -> Z -> forest -> Prop :=
| below_leaf : forall i c, may_have_scopes (v_tag w c) && v_haskids w c = false -> below w i c FNil
| below_none : forall i c, v_kid w c = NoMore -> below w i c FNil
| below_kids : forall i c c1 f, may_have_scopes (v_tag w c) && v_haskids w c = true -> v_kid w c = Got c1 -> from w i c1 f -> below w i c f.
(* the children of the entry of the unit *)
Definition unit_tree (w : view) (cu : Z) (f : forest) : Prop :=
  match v_kid w cu with Got c => from w [] c f | NoMore => f = FNil | Bad => False end.

(* a path from outside to inside *)
Inductive path : forest -> list Z -> Prop :=
| path_here : forall d b n, path (FNode d b n) [d]
| path_below : forall d b n p, path b p -> path (FNode d b n) (d :: p)
| path_next : forall d b n p, path n p -> path (FNode d b n) p.

(* whether an entry contains the address; an entry whose ranges cannot be looked up since
   the section is missing does not *)
Definition contains (w : view) (pc d : Z) : option bool :=
  match v_haspc w d pc with
  | Yes => Some true
  | No => Some false
  | Fails e => if (e =? 0) || (e =? NO_DEBUG_RANGES) || (e =? NO_DEBUG_RNGLISTS) then Some false else None
  end.
(* the entries that contain the address: at each level the first that does, down from the
   outermost to the innermost; none if an error is met *)
Fixpoint containing (t : Z -> option bool) (f : forest) : option (list Z) :=
  match f with
  | FNil => Some []
  | FNode d b n =>
    match t d with
    | Some true => option_map (cons d) (containing t b)
    | Some false => containing t n
    | None => None
    end
  end.
(* the path to the first occurrence of an entry *)
Fixpoint occurrence (x : Z) (f : forest) : option (list Z) :=
  match f with
  | FNil => None
  | FNode d b n =>
    if d =? x then Some [d]
    else match occurrence x b with
         | Some p => Some (d :: p)
         | None => occurrence x n
         end
  end.
