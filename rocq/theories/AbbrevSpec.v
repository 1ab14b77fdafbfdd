(* Abbreviation tables of DWARF 2 to 5 (section 7.5.3), independent of the code. *)
From Verif Require Import Base LebSpec Slice CfiSpec.

(* An attribute specification: name, form and, for DW_FORM_implicit_const (33), the value. *)
Record spec := Spec { a_name : Z; a_fm : Z; a_const : option Z }.
Record decl := Decl { dl_code : Z; dl_tag : Z; dl_children : bool; dl_attrs : list spec }.

Definition u32_leb (v : Z) (b : bytes) : Prop := uleb_of v b /\ v < two32.
Inductive attrs_bytes : list spec -> bytes -> Prop :=
  | A_nil : forall x y, uleb_of 0 x -> uleb_of 0 y -> attrs_bytes [] (x ++ y)
  | A_plain : forall n f l x y b, u32_leb n x -> u32_leb f y -> ~ (n = 0 /\ f = 0) -> f <> 33 -> attrs_bytes l b ->
      attrs_bytes (Spec n f None :: l) (x ++ y ++ b)
  | A_const : forall n v l x y z b, u32_leb n x -> u32_leb 33 y -> sleb_of v z -> attrs_bytes l b ->
      attrs_bytes (Spec n 33 (Some v) :: l) (x ++ y ++ z ++ b).
Definition decl_bytes (d : decl) (b : bytes) : Prop :=
  exists c t ab, b = c ++ t ++ (if dl_children d then 1 else 0) :: ab /\ u32_leb (dl_code d) c /\ 0 < dl_code d /\ u32_leb (dl_tag d) t /\ attrs_bytes (dl_attrs d) ab.
(* A table at a place of the section: the declarations with their places, then a zero. *)
Inductive table_at (dm : bytes) : Z -> list (Z * decl) -> Prop :=
  | Tab_end : forall p, at_ dm p [0] -> table_at dm p []
  | Tab_decl : forall p d b l, decl_bytes d b -> at_ dm p b -> table_at dm (p + zlen b) l -> table_at dm p ((p, d) :: l).
