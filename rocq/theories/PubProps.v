(* C65: the global names of .debug_pubnames. *)
From Verif Require Import Base DwModel Slice ArModel Ar2Proof UnitModel PubModel PubSpec PubProof Pub2Proof.
Import PubSpec.
From Coq Require Import ZifyBool ZifyNat.

Definition call {A} (cb : A -> glob -> A * Z) (a : A) (n : named) : A * Z := cb a (GL (nm_cu n) (nm_die n) (nm_name n)).
(* what dwarf_getpubnames is to do: the calls, and 0 or where to go on *)
Definition reports {A} (r : outcome (A * ret)) (v : A * option Z) : Prop := r = Ok (fst v, match snd v with None => Done | Some e => Stopped e end).

(* Every name of every set is passed to the callback once, in the order of the section,
   with the offset of its entry and of the entry of its unit, until the callback returns
   something else than 0; then the offset behind that entry is returned.  Partial: the
   full claim is about files of every DWARF version, also units of version 5
   (C65_version5_refuted), and units whose first 3 bytes are the last of .debug_info. *)
Theorem C65_enumeration_partial : forall A (cb : A -> glob -> A * Z) fle info l tail a,
  bytes_ok info -> zlen info + 23 < two64 -> zlen (section fle l tail) < two64 / 2 -> Forall (set_ok fle info) l -> zlen tail <= 14 -> l <> [] ->
  reports (getpubnames cb fle (Some (section fle l tail)) (Some info) 0 a) (visit (call cb) a (all_names fle info 0 l)).
Proof. intros A cb fle info l tail a IB IL DL OK T NE. exact (call_exact cb fle info IB IL l tail a DL OK T NE). Qed.
Print Assumptions C65_enumeration_partial.
Definition e_info : bytes := [12; 0; 0; 0; 4; 0; 0; 0; 0; 0; 8; 1; 2; 3; 4; 5].
Definition e_s1 : nset := NS false 0 16 [(11, [109; 97; 105; 110]); (13, [102])] [].
Definition e_s2 : nset := NS true 2 16 [(14, [103; 104])] [0; 0].
Definition collect (stop : Z) (a : list glob) (g : glob) : list glob * Z := (g :: a, if gl_die g =? stop then 1 else 0).
Ltac lt := match goal with |- ?a /\ ?b => split; lt | |- ?a <= ?b => apply Z.leb_le; vm_compute; reflexivity | |- ?a < ?b => apply Z.ltb_lt; vm_compute; reflexivity end.
Ltac nzs := repeat (apply Forall_cons; [discriminate|]); apply Forall_nil.
Ltac set_is_ok := split; [lt|split; [lt|split; [repeat (apply Forall_cons; [split; [lt|split; [lt|nzs]]|]); apply Forall_nil|lt]]].
Ltac are_bytes := repeat (apply Forall_cons; [unfold is_u8; lia|]); apply Forall_nil.
Lemma e_ok : Forall (set_ok true e_info) [e_s1; e_s2].
Proof. apply Forall_cons; [set_is_ok|]. apply Forall_cons; [set_is_ok|]. apply Forall_nil. Qed.
Lemma e_info_ok : bytes_ok e_info. Proof. are_bytes. Qed.
Example C65_enumeration_nonvacuous : Forall (set_ok true e_info) [e_s1; e_s2] /\ bytes_ok e_info /\ zlen (section true [e_s1; e_s2] [0; 0]) = 86 /\
  getpubnames (collect 99) true (Some (section true [e_s1; e_s2] [0; 0])) (Some e_info) 0 [] = Ok ([GL 13 16 [103; 104]; GL 11 13 [102]; GL 11 11 [109; 97; 105; 110]], Done) /\
  getpubnames (collect 11) true (Some (section true [e_s1; e_s2] [0; 0])) (Some e_info) 0 [] = Ok ([GL 11 11 [109; 97; 105; 110]], Stopped 23).
Proof. split; [exact e_ok|]. split; [exact e_info_ok|]. vm_compute. repeat split. Qed.

(* a call that goes on behind an entry of the first set sees the entries that are left.
   Partial: the full claim is about every entry at which a call stopped, see
   C65_resume_single_refuted and C65_resume_later_refuted. *)
Theorem C65_resume_partial : forall A (cb : A -> glob -> A * Z) fle info s t l tail a pre x post,
  bytes_ok info -> zlen info + 23 < two64 -> zlen (section fle (s :: t :: l) tail) < two64 / 2 -> Forall (set_ok fle info) (s :: t :: l) -> zlen tail <= 14 ->
  all_names fle info 0 (s :: t :: l) = pre ++ x :: post -> (length pre < length (n_names s))%nat ->
  reports (getpubnames cb fle (Some (section fle (s :: t :: l) tail)) (Some info) (nm_end x) a) (visit (call cb) a post).
Proof. intros A cb fle info s t l tail a pre x post IB IL DL OK T E L. exact (resume_first cb fle info IB IL s t l tail a pre x post DL OK T E L). Qed.
Print Assumptions C65_resume_partial.
Example C65_resume_nonvacuous : (exists post, all_names true e_info 0 [e_s1; e_s2] = [] ++ Named 11 11 [109; 97; 105; 110] 23 :: post) /\ (0 < length (n_names e_s1))%nat /\
  getpubnames (collect 99) true (Some (section true [e_s1; e_s2] [0; 0])) (Some e_info) 23 [] = Ok ([GL 13 16 [103; 104]; GL 11 13 [102]], Done).
Proof. split; [eexists; vm_compute; reflexivity|]. split; [vm_compute; lia|vm_compute; reflexivity]. Qed.

(* When there is one set only, going on at any offset, also at the offset a call returned,
   fails the assertion that follows the search for the set (dwarf_getpubnames.c:184). *)
Theorem C65_resume_single_refuted : (forall A (cb : A -> glob -> A * Z) fle info s tail off a, bytes_ok info -> zlen (section fle [s] tail) < two64 / 2 -> set_ok fle info s -> zlen tail <= 14 ->
  0 < off < zlen (section fle [s] tail) -> getpubnames cb fle (Some (section fle [s] tail)) (Some info) off a = UB) /\
  exists a r, getpubnames (collect 11) true (Some (section true [e_s1] [])) (Some e_info) 0 [] = Ok (a, Stopped r) /\ getpubnames (collect 99) true (Some (section true [e_s1] [])) (Some e_info) r a = UB.
Proof.
  split; [intros A cb fle info s tail off a IB DL OK T O; exact (resume_single cb fle info IB s tail off a DL OK T O)|].
  exists [GL 11 11 [109; 97; 105; 110]], 23. split; vm_compute; reflexivity.
Qed.
Print Assumptions C65_resume_single_refuted.

(* Going on at an offset in the second set or a later one fails the assertion in the
   search for the set, which always stops at the first set (dwarf_getpubnames.c:178-183). *)
Theorem C65_resume_later_refuted : (forall A (cb : A -> glob -> A * Z) fle info s t l tail off a, bytes_ok info -> zlen (section fle (s :: t :: l) tail) < two64 / 2 -> Forall (set_ok fle info) (s :: t :: l) -> zlen tail <= 14 ->
  zlen (set_bytes fle s) + first_at t <= off < zlen (section fle (s :: t :: l) tail) -> getpubnames cb fle (Some (section fle (s :: t :: l) tail)) (Some info) off a = UB) /\
  exists a r, getpubnames (collect 16) true (Some (section true [e_s1; e_s2] [])) (Some e_info) 0 [] = Ok (a, Stopped r) /\ getpubnames (collect 99) true (Some (section true [e_s1; e_s2] [])) (Some e_info) r a = UB.
Proof.
  split; [intros A cb fle info s t l tail off a IB DL OK T O; exact (resume_later cb fle info IB s t l tail off a DL OK T O)|].
  exists [GL 13 16 [103; 104]; GL 11 13 [102]; GL 11 11 [109; 97; 105; 110]], 74. split; vm_compute; reflexivity.
Qed.
Print Assumptions C65_resume_later_refuted.

(* Whatever the bytes are, the call ends, reads nothing outside the sections, passes only
   names that are in the section with their offset before them and their NUL behind them
   (every property I of the caller's state that such names preserve holds at the end), and
   returns an offset in the section.  Partial: the unit of no set may begin 3 bytes before
   the end of .debug_info, see C65_overread_refuted. *)
Theorem C65_any_bytes_partial : forall A (cb : A -> glob -> A * Z) fle d info (I : A -> Prop), bytes_ok d -> bytes_ok info -> zlen d < two64 / 2 ->
  (forall a g, I a -> occurs fle d info g -> I (fst (cb a g))) -> forall a, I a -> ~ at_end fle d info ->
  exists a' r, getpubnames cb fle (Some d) (Some info) 0 a = Ok (a', r) /\ I a' /\ (forall e, r = Stopped e -> 0 < e <= zlen d).
Proof. intros A cb fle d info I DB IB DL STEP a Ia NA. exact (call_any cb fle d info DB I STEP IB DL a Ia NA). Qed.
Print Assumptions C65_any_bytes_partial.
(* bytes that are no list of sets: the names of the first set run into the second *)
Definition e_bad : bytes := [10; 0; 0; 0; 2; 0; 0; 0; 0; 0; 9; 0; 0; 0; 5; 0; 0; 0; 65; 0; 7; 0; 0; 0; 66; 67].
Example C65_any_bytes_nonvacuous : ~ at_end true e_bad e_info /\ getpubnames (collect 99) true (Some e_bad) (Some e_info) 0 [] = Ok ([GL 11 5 [65]], Failed DWARF_E_INVALID_DWARF).
Proof.
  split; [|vm_compute; reflexivity]. intros (p & w & W & R). unfold rd in R. destruct ((0 <=? p) && (p + w <=? zlen e_bad)) eqn:C; [|discriminate]. injection R as R.
  change (zlen e_bad) with 26 in C. change (zlen e_info) with 16 in R.
  assert (P : exists n, (n < 26)%nat /\ p = Z.of_nat n) by (exists (Z.to_nat p); lia). destruct P as (n & N & ->). clear C.
  do 26 (destruct n as [|n]; [destruct W as [-> | ->]; vm_compute in R; discriminate|]). lia.
Qed.

(* The unit offset of a set is checked to leave 3 bytes in .debug_info, and 4 are read. *)
Theorem C65_overread_refuted : exists (d info : bytes) fle, bytes_ok d /\ bytes_ok info /\ getpubnames (collect 99) fle (Some d) (Some info) 0 [] = UB.
Proof. exists (set_bytes true (NS false 13 16 [(11, [109])] [])), e_info, true. split; [|split; [exact e_info_ok|vm_compute; reflexivity]]. vm_compute set_bytes. are_bytes. Qed.
Print Assumptions C65_overread_refuted.

(* without a section, or at its end, there is nothing; without .debug_info only errors *)
Theorem C65_nothing : forall A (cb : A -> glob -> A * Z) fle d info off a,
  (0 <= off -> getpubnames cb fle None info off a = Ok (a, Done)) /\
  (zlen d <= off -> getpubnames cb fle (Some d) info off a = Ok (a, Done)) /\
  (off < 0 -> getpubnames cb fle (Some d) info off a = Ok (a, Failed DWARF_E_INVALID_OFFSET)) /\
  (bytes_ok d -> 0 <= off < zlen d -> zlen d < two64 / 2 -> exists e, getpubnames cb fle (Some d) None off a = Ok (a, Failed e)).
Proof.
  intros A cb fle d info off a. unfold getpubnames. pose proof (zlen_nonneg _ d). split; [|split; [|split]]; intros H0.
  - replace (off <? 0) with false by lia. reflexivity.
  - replace (off <? 0) with false by lia. replace (zlen d <=? off) with true by lia. reflexivity.
  - replace (off <? 0) with true by lia. reflexivity.
  - intros H1 H2. replace (off <? 0) with false by lia. replace (zlen d <=? off) with false by lia. pose proof (get_none fle d H2 H0) as G. destruct (get_offsets fle d None) as [|e| |]; try contradiction. exists e. reflexivity.
Qed.
Print Assumptions C65_nothing.
Example C65_nothing_nonvacuous : getpubnames (collect 99) true (Some (section true [e_s1] [])) None 0 [] = Ok ([], Failed DWARF_E_INVALID_DWARF) /\ getpubnames (collect 99) true (Some (section true [e_s1] [])) (Some e_info) 34 [] = Ok ([], Done).
Proof. vm_compute. split; reflexivity. Qed.

(* The offset reported for the entry of the unit is where unit iteration finds it, for
   compile units of DWARF 2 to 4.  Partial: not for DWARF 5, see C65_version5_refuted. *)
Theorem C65_unit_entry_partial : forall fle info abb u h, bytes_ok info -> 0 <= u < two64 - 4 -> next_unit fle false (Some info) abb u = Ok (NuUnit h) -> 2 <= u_version h <= 4 ->
  u_hsize h = unit_header info u.
Proof.
  intros fle info abb u h IB U H V. unfold next_unit in H. destruct ((u =? two64 - 1) || (zlen info <=? u64 (u + 4))) eqn:C0; [discriminate|].
  unfold u64 in C0. rewrite Z.mod_small in C0 by lia. rewrite rd_in in H by lia. cbn [obind] in H.
  pose proof (fval_ones fle (zsub info u 4) (bytes_ok_part _ _ _ IB) ltac:(apply zsub_length; lia)) as FO. unfold unit_header. rewrite FO in H. destruct (list_eq_dec Z.eq_dec (zsub info u 4) [255; 255; 255; 255]).
  all: cbn [negb andb] in H.
  1: destruct (rd fle info (u + 4) 8) as [length| | |]; [|discriminate..]; cbn [obind] in H; destruct (rd fle info (u + 4 + 8) 2) as [version| | |]; [|discriminate..].
  2: destruct (LENGTH_MIN_ESCAPE <=? _); [discriminate|]; cbn [obind] in H; destruct (rd fle info (u + 4) 2) as [version| | |]; [|discriminate..].
  all: cbn [obind] in H; destruct (5 <=? version) eqn:V5; cbn [obind] in H;
    [match type of H with obind (rd ?a ?b ?c ?d) _ = _ => destruct (rd a b c d) as [ut| | |] end; [|discriminate..]|]; cbn [obind] in H;
    match type of H with (if ?c then _ else _) = _ => destruct c eqn:KN end; try (injection H as <-; cbn [u_version u_hsize] in V; lia);
    repeat match type of H with
    | (if ?c then _ else _) = _ => let E := fresh in destruct c eqn:E; try discriminate H; try discriminate E
    | obind ?x _ = _ => let E := fresh in destruct x eqn:E; try discriminate H; cbn [obind] in H
    end; injection H as <-; cbn [u_version u_hsize] in *; try (replace (version <? 5) with true by lia); lia.
Qed.
Print Assumptions C65_unit_entry_partial.
Example C65_unit_entry_nonvacuous : exists h, next_unit true false (Some e_info) (Some [0]) 0 = Ok (NuUnit h) /\ u_version h = 4 /\ unit_header e_info 0 = 11.
Proof. exists (UH 16 11 4 1 0 8 4 0 0). vm_compute. repeat split. Qed.

(* The header of a compile unit of DWARF 5 has a byte more: the offset reported for the
   entry of the unit is not where it is. *)
Theorem C65_version5_refuted : exists info s h a g, bytes_ok info /\ set_ok true info s /\ next_unit true false (Some info) (Some [0]) (n_unit s) = Ok (NuUnit h) /\
  getpubnames (collect 99) true (Some (section true [s] [])) (Some info) 0 [] = Ok (g :: a, Done) /\ gl_cu g <> n_unit s + u_hsize h.
Proof.
  exists [13; 0; 0; 0; 5; 0; 1; 8; 0; 0; 0; 0; 1; 2; 3; 4; 5], e_s1, (UH 17 12 5 1 0 8 4 0 0), [GL 11 11 [109; 97; 105; 110]], (GL 11 13 [102]).
  split; [are_bytes|]. split; [set_is_ok|].
  split; [vm_compute; reflexivity|]. split; [vm_compute; reflexivity|]. vm_compute. discriminate.
Qed.
Print Assumptions C65_version5_refuted.
