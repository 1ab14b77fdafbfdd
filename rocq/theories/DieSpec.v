(* Trees of debugging information entries as laid out in a unit (DWARF 2 to 5, section 7.5.3),
   independent of the code. *)
From Verif Require Import Base LebSpec Slice CfiSpec FormSpec AbbrevSpec.

(* An entry: its place, its abbreviation declaration, the values of its attributes in order
   and its children. *)
Inductive tree := Node (place : Z) (d : decl) (vs : list value) (children : list tree).
Definition place (t : tree) : Z := match t with Node p _ _ _ => p end.
Fixpoint preorder (t : tree) : list Z := match t with Node p _ _ ch => p :: concat (map preorder ch) end.

Definition decl_of (t : tree) : decl := match t with Node _ d _ _ => d end.
Definition values_of (t : tree) : list value := match t with Node _ _ vs _ => vs end.
Definition children_of (t : tree) : list tree := match t with Node _ _ _ ch => ch end.
(* The attributes of an entry with their values, and the first one of a name. *)
Definition attributes (t : tree) : list (spec * value) := combine (dl_attrs (decl_of t)) (values_of t).
Definition first_named (name : Z) (l : list (spec * value)) : option (spec * value) := find (fun sv => a_name (fst sv) =? name) l.
Inductive subtree : tree -> tree -> Prop :=
  | Sub_self : forall t, subtree t t
  | Sub_child : forall t c p d vs ch, In c ch -> subtree t c -> subtree t (Node p d vs ch).

Inductive vals_bytes (m : params) : list spec -> list value -> bytes -> Prop :=
  | V_nil : vals_bytes m [] [] []
  | V_cons : forall s v b l vs bs, holds m (a_fm s) v b -> vals_bytes m l vs bs -> vals_bytes m (s :: l) (v :: vs) (b ++ bs).

(* DW_AT_sibling (1), if present, refers to the place after the entry and its children, counted
   from the start of the unit, by a form of reference inside a unit. *)
Definition sibling_ok (start next : Z) (l : list spec) (vs : list value) : Prop :=
  Forall (fun sv => a_name (fst sv) = 1 -> In (a_fm (fst sv)) [17; 18; 19; 20; 21] /\ snd sv = Unsigned (next - start)) (combine l vs).

(* b are the bytes of the entry, from its place on; [D] are the declarations with their places.
   Entries whose declaration says so have their children after them, closed by a zero. *)
Inductive entry (m : params) (start : Z) (D : list (Z * decl)) : tree -> bytes -> Prop :=
  | E_leaf : forall p q d vs c vb, In (q, d) D -> dl_children d = false -> u32_leb (dl_code d) c -> vals_bytes m (dl_attrs d) vs vb ->
      sibling_ok start (p + zlen (c ++ vb)) (dl_attrs d) vs -> entry m start D (Node p d vs []) (c ++ vb)
  | E_node : forall p q d vs ch c vb fb, In (q, d) D -> dl_children d = true -> u32_leb (dl_code d) c -> vals_bytes m (dl_attrs d) vs vb ->
      sibling_ok start (p + zlen (c ++ vb ++ fb ++ [0])) (dl_attrs d) vs -> forest m start D (p + zlen (c ++ vb)) ch fb ->
      entry m start D (Node p d vs ch) (c ++ vb ++ fb ++ [0])
with forest (m : params) (start : Z) (D : list (Z * decl)) : Z -> list tree -> bytes -> Prop :=
  | F_nil : forall p, forest m start D p [] []
  | F_cons : forall t b ts bs, entry m start D t b -> forest m start D (place t + zlen b) ts bs ->
      forest m start D (place t) (t :: ts) (b ++ bs).
Scheme entry_ind2 := Minimality for entry Sort Prop with forest_ind2 := Minimality for forest Sort Prop.
Combined Scheme entry_forest_ind from entry_ind2, forest_ind2.
