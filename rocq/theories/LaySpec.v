(* What a layout is, independently of how it is computed. *)
From Verif Require Import Base LayModel.

(* Regions one after another from [p] to [e]: each starts at the first multiple of its alignment that is not before the end of the previous one.  A region is its alignment, its start and its length. *)
Inductive packed : Z -> list (Z * Z * Z) -> Z -> Prop :=
| pk_nil : forall p, packed p [] p
| pk_cons : forall p a s n r e, 0 < a -> s mod a = 0 -> p <= s < p + a -> 0 <= n -> packed (s + n) r e -> packed p ((a, s, n) :: r) e.

Lemma packed_le p l e : packed p l e -> p <= e.
Proof. induction 1; lia. Qed.
(* the regions are pairwise disjoint and between [p] and [e] *)
Lemma packed_disjoint p l e : packed p l e -> forall i j a s n b t m, (i < j)%nat ->
  nth_error l i = Some (a, s, n) -> nth_error l j = Some (b, t, m) -> p <= s /\ s + n <= t /\ t + m <= e.
Proof.
  induction 1 as [|p a0 s0 n0 r e A M S N P IH]; intros i j a s n b t m IJ H1 H2; [destruct i; discriminate H1|].
  destruct j as [|j]; [lia|]. cbn [nth_error] in H2. destruct i as [|i]; cbn [nth_error] in H1.
  - injection H1 as -> -> ->. assert (K : forall p l e, packed p l e -> forall j b t m, nth_error l j = Some (b, t, m) -> p <= t /\ t + m <= e).
    { clear. induction 1 as [|p a0 s0 n0 r e A M S N P IH]; intros j b t m H; [destruct j; discriminate H|].
      destruct j as [|j]; cbn [nth_error] in H; [injection H as -> -> ->; pose proof (packed_le _ _ _ P); lia|]. destruct (IH j b t m H). lia. }
    destruct (K _ _ _ P j b t m H2). lia.
  - destruct (IH i j a s n b t m ltac:(lia) H1 H2). lia.
Qed.
Lemma packed_in p l e : packed p l e -> forall a s n, In (a, s, n) l -> p <= s /\ s + n <= e /\ s mod a = 0.
Proof.
  induction 1 as [|p a0 s0 n0 r e A M S N P IH]; intros a s n []; [inversion H; subst; pose proof (packed_le _ _ _ P); lia|].
  destruct (IH _ _ _ H). lia.
Qed.

Definition pow2 (x : Z) : Prop := exists k, 0 <= k /\ x = 2 ^ k.

(* the buffers of a section *)
Definition blocks (s : scn) : list dblk := match s_data s with Some ds => ds | None => [] end.
Definition data_regions (s : scn) : list (Z * Z * Z) := map (fun d => (d_align d, d_off d, d_size d)) (blocks s).
(* the bytes of the file a section takes *)
Definition scn_region (s : scn) : Z * Z * Z := (s_align s, s_off s, if s_type s =? SHT_NOBITS then 0 else s_size s).
Definition sections (l : elfl) : list scn := match l_scns l with Some ss => ss | None => [] end.
Definition ehdr_region (l : elfl) : Z * Z * Z := (1, 0, if l_64 l then 64 else 52).
Definition phdr_regions (l : elfl) : list (Z * Z * Z) := match l_phnum l with Some n => [(1, l_phoff l, (if l_64 l then 56 else 32) * n)] | None => [] end.
Definition shdr_regions (l : elfl) : list (Z * Z * Z) :=
  match l_scns l with Some ss => [(if l_64 l then 8 else 4, l_shoff l, (if l_64 l then 64 else 40) * (1 + zlen ss))] | None => [] end.
Definition regions (l : elfl) : list (Z * Z * Z) := ehdr_region l :: phdr_regions l ++ map scn_region (sections l) ++ shdr_regions l.

(* the alignment of a section: that of the header and those of its buffers *)
Definition need_align (s : scn) : Z := fold_right (fun d a => Z.max (d_align d) a) (Z.max 1 (s_align s)) (blocks s).
(* an upper bound of the room a section takes *)
Definition need_size (s : scn) : Z := match s_data s with Some ds => fold_right (fun d n => d_align d + d_size d + n) 0 ds | None => s_raw s end.
Definition need (l : elfl) : Z :=
  (if l_64 l then 64 else 52) + match l_phnum l with Some n => (if l_64 l then 56 else 32) * n | None => 0 end +
  fold_right (fun s n => need_align s + need_size s + n) 0 (sections l) + 8 + 64 * (1 + zlen (sections l)).

(* values are in their types' ranges; every buffer has an alignment *)
Definition dblk_ok (d : dblk) : Prop := 0 < d_align d < two32 /\ is_u64 (d_size d).
Definition scn_ok (s : scn) : Prop := 0 <= s_align s < two32 /\ 0 <= s_raw s < two63 /\ Forall dblk_ok (blocks s).
Definition file_ok (l : elfl) : Prop := Forall scn_ok (sections l) /\ match l_phnum l with Some n => 0 <= n | None => True end.

(* nothing but the layout changes *)
Definition same_block (d d' : dblk) : Prop := d_align d' = d_align d /\ d_size d' = d_size d /\ d_ver d' = d_ver d.
Definition same_scn (s s' : scn) : Prop :=
  s_type s' = s_type s /\ s_flags s' = s_flags s /\ s_raw s' = s_raw s /\ s_chsize s' = s_chsize s /\
  match s_data s, s_data s' with Some a, Some b => Forall2 same_block a b | None, None => True | _, _ => False end.
