(* What it means for an entry to have an attribute, for a type to be behind aliases and
   qualifiers, and the size of a type, from the text of DWARF. *)
From Verif Require Import Base ScopeModel SizeModel.

Section spec.
Variable w : types.

(* the entry an entry refers to as its abstract origin, or else as its specification *)
Definition refers (d : Z) (l : av) : Prop :=
  t_attr w d AT_abstract_origin = Some l \/ (t_attr w d AT_abstract_origin = None /\ t_attr w d AT_specification = Some l).
Definition refers_not (d : Z) : Prop := t_attr w d AT_abstract_origin = None /\ t_attr w d AT_specification = None.

(* an entry has an attribute itself, or from the entry it refers to; that of a split unit
   also from its skeleton; over at most n references *)
Inductive has (a : Z) (v : av) : nat -> Z -> Prop :=
| has_own : forall n d, t_attr w d a = Some v -> has a v n d
| has_ref : forall n d l d', t_attr w d a = None -> refers d l -> av_ref l = Some d' -> has a v n d' -> has a v (S n) d
| has_skeleton : forall n d s, t_attr w d a = None -> refers_not d -> t_skel w d = Some s -> t_attr w s a = Some v -> has a v n d.
Inductive lacks (a : Z) : nat -> Z -> Prop :=
| lacks_own : forall n d, t_attr w d a = None -> refers_not d -> (forall s, t_skel w d = Some s -> t_attr w s a = None) -> lacks a n d
| lacks_ref : forall n d l d', t_attr w d a = None -> refers d l -> av_ref l = Some d' -> lacks a n d' -> lacks a (S n) d
| lacks_broken : forall n d l, t_attr w d a = None -> refers d l -> av_ref l = None -> lacks a n d.
(* more than n references are needed to tell *)
Inductive longer (a : Z) : nat -> Z -> Prop :=
| longer_now : forall d l d', t_attr w d a = None -> refers d l -> av_ref l = Some d' -> longer a 0 d
| longer_ref : forall n d l d', t_attr w d a = None -> refers d l -> av_ref l = Some d' -> longer a n d' -> longer a (S n) d.

(* DWARF 5 table 5.2, 5.3: typedef, const, volatile, restrict, atomic, immutable, packed,
   shared *)
Definition modifier (t : Z) : Prop := In t [22; 38; 53; 55; 71; 75; 45; 64].
(* n modifiers lead from d to r, which is none *)
Inductive peels : nat -> Z -> Z -> Prop :=
| peels_done : forall d, ~ modifier (t_tag w d) -> t_tag w d <> 0 -> peels 0 d d
| peels_more : forall n d a d' r, modifier (t_tag w d) -> has AT_type a 16 d -> av_ref a = Some d' -> peels n d' r -> peels (S n) d r.

(* the type of an entry, without modifiers *)
Definition type_of (d t : Z) : Prop := exists a t0 n, has AT_type a 16 d /\ av_ref a = Some t0 /\ peels n t0 t /\ (n <= 63)%nat.

(* DWARF 5 table 7.17 *)
Definition lower_of_language (lang l : Z) : Prop :=
  1 <= lang <= 37 /\ l = if existsb (Z.eqb lang) [3; 5; 6; 7; 8; 9; 10; 13; 14; 15; 23; 31; 34; 35] then 1 else 0.

Inductive siblings : Z -> list Z -> Prop :=
| sib_last : forall c, (forall d, t_sib w c <> Got d) -> siblings c [c]
| sib_next : forall c d l, t_sib w c = Got d -> siblings d l -> siblings c (c :: l).
Definition children (d : Z) (l : list Z) : Prop := exists c, t_kid w d = Got c /\ siblings c l.

(* [full]: what DWARF says; otherwise without dimensions that are enumerations, empty
   dimensions and dimensions with 2^63 elements *)
Variable full : bool.

Definition lower_bound (arr c l : Z) : Prop :=
  (exists a, has AT_lower_bound a 16 c /\ av_s a = Some l) \/
  (lacks AT_lower_bound 16 c /\ exists a lang, has AT_language a 16 (t_cu w arr) /\ av_u a = Some lang /\ lower_of_language lang l).
Definition enumerators (c m : Z) : Prop :=
  exists l, children c l /\ (exists e a, In e l /\ t_tag w e = TAG_enumerator /\ has AT_const_value a 16 e /\ av_u a = Some m) /\
            forall e a v, In e l -> t_tag w e = TAG_enumerator -> has AT_const_value a 16 e -> av_u a = Some v -> v <= m.
(* the elements of one dimension *)
Inductive dimension (arr c : Z) : Z -> Prop :=
| dim_count : forall a n, t_tag w c = TAG_subrange -> has AT_count a 16 c -> av_u a = Some n -> dimension arr c n
| dim_bounds : forall a u l, t_tag w c = TAG_subrange -> lacks AT_count 16 c -> has AT_upper_bound a 16 c -> av_s a = Some u -> lower_bound arr c l ->
    (l <= u /\ u - l + 1 < two64 / 2) \/ (full = true /\ l <= u + 1) -> dimension arr c (u - l + 1)
| dim_enum : forall m, full = true -> t_tag w c = TAG_enumeration -> enumerators c m -> dimension arr c (m + 1).
(* the product of the dimensions among entries; they are how many *)
Inductive dimensions (arr : Z) : list Z -> nat -> Z -> Prop :=
| dims_nil : dimensions arr [] 0 1
| dims_dim : forall c l i n m, dimension arr c n -> dimensions arr l i m -> dimensions arr (c :: l) (S i) (n * m)
| dims_other : forall c l i m, t_tag w c <> TAG_subrange -> t_tag w c <> TAG_enumeration -> dimensions arr l i m -> dimensions arr (c :: l) i m.
(* the distance of the elements *)
Inductive distance (arr elt : Z) : Z -> Prop :=
| dist_bytes : forall a n, has AT_byte_stride a 16 arr -> av_u a = Some n -> distance arr elt n
| dist_bits : forall a n, lacks AT_byte_stride 16 arr -> has AT_bit_stride a 16 arr -> av_u a = Some (8 * n) -> distance arr elt n
| dist_size : lacks AT_byte_stride 16 arr -> lacks AT_bit_stride 16 arr -> distance arr elt elt.

(* the size of a type in bytes; types of types nested at most n deep *)
Inductive size : nat -> Z -> Z -> Prop :=
| size_given : forall n d a v, has AT_byte_size a 16 d -> av_u a = Some v -> size (S n) d v
| size_pointer : forall n d, lacks AT_byte_size 16 d -> In (t_tag w d) [15; 16; 66] -> size (S n) d (t_asize w d)
| size_subrange : forall n d t v, lacks AT_byte_size 16 d -> t_tag w d = TAG_subrange -> type_of d t -> size n t v -> size (S n) d v
| size_array : forall n d t e l i m s, lacks AT_byte_size 16 d -> t_tag w d = TAG_array -> type_of d t -> size n t e -> children d l -> dimensions d l (S i) m -> distance d e s ->
    size (S n) d (m * s).
End spec.
