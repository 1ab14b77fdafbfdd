(* C68: inherited attributes.  C69: types behind modifiers.  C70: sizes of types. *)
From Verif Require Import Base DwModel FormModel ScopeModel SizeModel SizeSpec SizeProof.
From Coq Require Import ZifyBool ZifyNat.

(* The example: attributes as (entry, attribute, value). *)
Definition num (n : Z) : av := AV (Some n) (Some n) None.
Definition to (d : Z) : av := AV None None (Some d).
Definition look (l : list (Z * Z * av)) (d a : Z) : option av := match find (fun r => (fst (fst r) =? d) && (snd (fst r) =? a)) l with Some r => Some (snd r) | None => None end.
Definition tags (l : list (Z * Z)) (d : Z) : Z := match find (fun r => fst r =? d) l with Some r => snd r | None => 0 end.
(* 1: unit in C99; 2: int, 4 bytes; 3: const int; 4: int[3][1..2][] with children 5 (count
   3), 6 (bounds 1 and 2), 7 (upper bound 9), 8 (something else); 9: typedef of 4;
   10: pointer; 11: the declaration of 12; 12 has its type from 11; 13: array over an
   enumeration 14 with the enumerators 15 and 16, of values 0 and 1 *)
Definition e_attrs : list (Z * Z * av) :=
  [(1, AT_language, num 12); (2, AT_byte_size, num 4); (3, AT_type, to 2); (4, AT_type, to 3); (5, AT_count, num 3); (6, AT_lower_bound, num 1); (6, AT_upper_bound, num 2);
   (7, AT_upper_bound, num 9); (9, AT_type, to 4); (13, AT_type, to 2); (15, AT_const_value, num 0); (16, AT_const_value, num 1)].
Definition e_kid (d : Z) : nav := if d =? 4 then Got 5 else if d =? 13 then Got 14 else if d =? 14 then Got 15 else NoMore.
Definition e_sib (d : Z) : nav := if (5 <=? d) && (d <? 8) then Got (d + 1) else if d =? 15 then Got 16 else NoMore.
Definition e_tags : list (Z * Z) := [(1, 17); (2, 36); (3, 38); (4, 1); (5, 33); (6, 33); (7, 33); (8, 5); (9, 22); (10, 15); (11, 52); (12, 52); (13, 1); (14, 4); (15, 40); (16, 40)].
Definition e_types (more : list (Z * Z * av)) : types := Types (tags e_tags) (look (more ++ e_attrs)) e_kid e_sib (fun _ => 1) (fun _ => 8) (fun _ => None).
Definition et : types := e_types [].
Definition et2 : types := e_types [(11, AT_type, to 3); (12, AT_specification, to 11)].

(* An attribute is found if the entry has it, or the entry it refers to as its abstract
   origin or specification, over at most 16 references; otherwise none is.  Partial: the
   full claim has no limit on the references (C68_far_refuted). *)
Theorem C68_inherited_partial : forall w d a,
  (forall v, has w a v 16 d -> integrate w d a = Some v) /\ (lacks w a 16 d -> integrate w d a = None) /\
  ((exists v, has w a v 16 d) \/ lacks w a 16 d \/ longer w a 16 d).
Proof. intros w d a. split; [intro v; apply integrate_has|]. split; [apply integrate_lacks|apply follow_cases]. Qed.
Print Assumptions C68_inherited_partial.
Example C68_inherited_nonvacuous : has et2 AT_type (to 3) 16 12 /\ integrate et2 12 AT_type = Some (to 3) /\ lacks et2 AT_count 16 12.
Proof.
  assert (R : refers et2 12 (to 11)) by (right; split; reflexivity).
  split; [eapply has_ref; [reflexivity|exact R|reflexivity|apply has_own; reflexivity]|]. split; [reflexivity|]. eapply lacks_ref; [reflexivity|exact R|reflexivity|]. apply lacks_own; [reflexivity|split; reflexivity|discriminate].
Qed.

(* References in a circle, or too many, end without an attribute unless a split unit is
   met. *)
Theorem C68_circle : forall w d a, (forall d, t_skel w d = None) -> longer w a 16 d -> integrate w d a = None.
Proof. intros w d a NS. exact (longer_follow w a 16 d NS). Qed.
Print Assumptions C68_circle.
Definition e_circle : types := e_types [(20, AT_abstract_origin, to 21); (21, AT_specification, to 20)].
Example C68_circle_nonvacuous : longer e_circle AT_type 16 20.
Proof.
  assert (A : refers e_circle 20 (to 21)) by (left; reflexivity). assert (B : refers e_circle 21 (to 20)) by (right; split; reflexivity).
  do 8 (eapply longer_ref; [reflexivity|exact A|reflexivity|]; eapply longer_ref; [reflexivity|exact B|reflexivity|]). eapply longer_now; [reflexivity|exact A|reflexivity].
Qed.

(* The 17th entry an attribute may be inherited from is not asked. *)
Definition e_far : types := Types (fun _ => 52) (fun d a => if a =? AT_specification then if d <? 17 then Some (to (d + 1)) else None else if (a =? AT_type) && (d =? 17) then Some (to 99) else None) (fun _ => NoMore) (fun _ => NoMore) (fun _ => 0) (fun _ => 8) (fun _ => None).
Theorem C68_far_refuted : exists w d a v, has w a v 17 d /\ integrate w d a = None.
Proof.
  exists e_far, 0, AT_type, (to 99). split; [|reflexivity].
  assert (R : forall d, d < 17 -> refers e_far d (to (d + 1))) by (intros d L; right; split; [reflexivity|cbn; replace (d <? 17) with true by lia; reflexivity]).
  do 17 (eapply has_ref; [reflexivity|apply R; reflexivity|reflexivity|]; cbn [Z.add Pos.add Pos.succ]). apply has_own. reflexivity.
Qed.
Print Assumptions C68_far_refuted.

(* The modifiers stop at one without a type: a qualified void. *)
Inductive stops (w : types) : nat -> Z -> Z -> Prop :=
| stops_here : forall d, modifier (t_tag w d) -> lacks w AT_type 16 d -> stops w 0 d d
| stops_more : forall n d a d' r, modifier (t_tag w d) -> has w AT_type a 16 d -> av_ref a = Some d' -> stops w n d' r -> stops w (S n) d r.

(* Over at most 63 modifiers the type behind them is found, and a modifier without a type
   is.  Partial: the full claim has no limit (C69_deep_refuted). *)
Theorem C69_peel_partial : forall w d r n, (n <= 63)%nat -> (peels w n d r -> peel_type w d = PDone r) /\ (stops w n d r -> peel_type w d = PStuck r).
Proof.
  intros w d r n L. split; [intro P; apply (peels_loop w n d r P); lia|]. intro S. unfold peel_type. assert (LT : (n < 64)%nat) by lia. clear L. revert LT. generalize 64%nat as m.
  induction S as [d M N|n d a d' r M A E S IH]; intros m L; (destruct m as [|m]; [lia|]); cbn [peel_loop]; apply modifier_iff in M; rewrite M.
  - rewrite (integrate_lacks w _ _ N). reflexivity.
  - rewrite (integrate_has w _ _ _ A), E. apply IH. lia.
Qed.
Print Assumptions C69_peel_partial.
Example e_peels : peels et 1 9 4.
Proof. eapply peels_more; [cbn; auto|apply has_own; reflexivity|reflexivity|]. apply peels_done; [cbn; lia|discriminate]. Qed.
Example C69_peel_nonvacuous : peels et 1 9 4 /\ peel_type et 9 = PDone 4 /\ stops (Types (fun _ => 38) (fun _ _ => None) (fun _ => NoMore) (fun _ => NoMore) (fun _ => 0) (fun _ => 8) (fun _ => None)) 0 5 5.
Proof. split; [exact e_peels|]. split; [reflexivity|]. constructor; [cbn; auto|]. apply lacks_own; [reflexivity|split; reflexivity|discriminate]. Qed.

(* What is found is behind that many modifiers and is none itself. *)
Theorem C69_sound : forall w d r, (forall d, t_skel w d = None) -> peel_type w d = PDone r -> (exists n, (n <= 63)%nat /\ peels w n d r) /\ ~ modifier (t_tag w r).
Proof.
  intros w d r NS E. assert (INV : forall d a v, integrate w d a = Some v -> has w a v 16 d).
  { intros d0 a v I. destruct (follow_cases w a 16 d0) as [(v' & H)|[H|H]]; [pose proof (integrate_has w _ _ _ H); congruence|pose proof (integrate_lacks w _ _ H); congruence|]. pose proof (longer_follow w a 16 d0 NS H). unfold integrate in I. congruence. }
  destruct (peel_loop_inv w INV _ _ _ E) as (n & L & P). split; [exists n; split; [lia|exact P]|]. clear -P. induction P; assumption.
Qed.
Print Assumptions C69_sound.
Example C69_sound_nonvacuous : (forall d, t_skel et d = None) /\ peel_type et 9 = PDone 4. Proof. split; reflexivity. Qed.

(* Behind 64 modifiers nothing is found. *)
Definition e_deep : types := Types (fun d => if d <? 64 then 38 else 36) (fun d a => if (a =? AT_type) && (d <? 64) then Some (to (d + 1)) else None) (fun _ => NoMore) (fun _ => NoMore) (fun _ => 0) (fun _ => 8) (fun _ => None).
Theorem C69_deep_refuted : exists w d r, peels w 64 d r /\ peel_type w d = PError.
Proof.
  exists e_deep, 0, 64. split; [|vm_compute; reflexivity].
  assert (H : forall n, (n <= 64)%nat -> peels e_deep n (64 - Z.of_nat n) 64).
  { induction n as [|n IH]; intro L; [apply peels_done; [cbn; lia|cbn; lia]|]. eapply (peels_more _ _ _ (to (64 - Z.of_nat n)) (64 - Z.of_nat n)); [|apply has_own| |].
    - cbn [e_deep t_tag]. replace (64 - Z.of_nat (S n) <? 64) with true by lia. cbn. auto.
    - cbn [e_deep t_attr]. replace (AT_type =? AT_type) with true by reflexivity. replace (64 - Z.of_nat (S n) <? 64) with true by lia. cbn [andb]. do 2 f_equal. lia.
    - reflexivity.
    - apply IH. lia. }
  exact (H 64%nat ltac:(lia)).
Qed.
Print Assumptions C69_deep_refuted.

(* The size of a type is the one given; that of a pointer the size of an address; that of
   a subrange the size of its type; that of an array the product of the elements of its
   dimensions and their distance; modulo 2^64.  Partial: the full claim is about every
   type, also arrays over enumerations, empty arrays, those with 2^63 elements or more, and
   types nested deeper than 256 (C70_enumeration_refuted, C70_empty_refuted,
   C70_overflow_refuted), and the full numbers (C70_wrap_refuted). *)
Theorem C70_size_partial : forall w d r n v, ranged w -> (n <= 63)%nat -> peels w n d r -> size w false 256 r v ->
  exists k0, forall k, (k0 <= k)%nat -> dwarf_aggregate_size w k d = Ok (Some (u64 v)).
Proof.
  intros w d r n v R L P S. destruct (size_ok w R _ _ _ S) as (k0 & K). exists k0. intros k K0. unfold dwarf_aggregate_size, peel_type. rewrite (peels_loop w _ _ _ P) by lia. apply K; lia.
Qed.
Print Assumptions C70_size_partial.
Lemma look_range : forall (l : list (Z * Z * av)) (P : av -> Prop) d a x, Forall (fun r => P (snd r)) l -> look l d a = Some x -> P x.
Proof. intros l P d a x F E. unfold look in E. destruct (find _ l) as [r|] eqn:X; [|discriminate]. injection E as <-. apply find_some in X as (I & _). rewrite Forall_forall in F. exact (F r I). Qed.
Ltac each := unfold e_attrs; repeat (apply Forall_cons; [cbn; let E := fresh in intros v E; first [discriminate E|injection E as <-; lia]|]); apply Forall_nil.
Lemma e_ranged : ranged et.
Proof.
  split; [|intro d; cbn; lia]. intros d a x v E. revert v. apply (look_range e_attrs (fun x => forall v, av_u x = Some v -> 0 <= v < two64) d a x); [|exact E].
  each.
Qed.
Ltac own := apply has_own; reflexivity.
Ltac none := apply lacks_own; [reflexivity|split; reflexivity|discriminate].
Lemma e_size : size et false 256 4 240.
Proof.
  change 240 with (3 * (2 * (10 * 1)) * 4). apply (size_array et false 255 4 2 4 [5; 6; 7; 8] 2).
  - none.
  - reflexivity.
  - exists (to 3), 3, 1%nat. split; [own|]. split; [reflexivity|]. split; [|lia]. eapply peels_more; [cbn; auto|own|reflexivity|]. apply peels_done; [cbn; lia|discriminate].
  - eapply size_given; [own|reflexivity].
  - exists 5. split; [reflexivity|]. do 3 (eapply sib_next; [reflexivity|]). apply sib_last. discriminate.
  - apply dims_dim; [eapply dim_count; [reflexivity|own|reflexivity]|]. apply dims_dim; [eapply (dim_bounds et false 4 6 (num 2) 2 1); [reflexivity|none|own|reflexivity|left; exists (num 1); split; [own|reflexivity]|left; lia]|].
    apply dims_dim; [eapply (dim_bounds et false 4 7 (num 9) 9 0); [reflexivity|none|own|reflexivity| |left; lia]|].
    + right. split; [none|]. exists (num 12), 12. split; [own|]. split; [reflexivity|]. split; [lia|reflexivity].
    + apply dims_other; [discriminate|discriminate|apply dims_nil].
  - apply dist_size; none.
Qed.
Example C70_size_nonvacuous : ranged et /\ peels et 1 9 4 /\ size et false 256 4 240 /\ dwarf_aggregate_size et 10 9 = Ok (Some 240) /\ dwarf_aggregate_size et 10 10 = Ok (Some 8).
Proof. split; [exact e_ranged|]. split; [exact e_peels|]. split; [exact e_size|]. split; vm_compute; reflexivity. Qed.

(* Whatever is answered is the size of the type.  Partial: the full claim is about every
   type, also arrays over enumerations, and also languages beyond 2^31, split units and
   entries that refer to others over more than 16 references, which this leaves out. *)
Theorem C70_sound_partial : forall w k d z, plain w -> ranged w -> (forall d a, ~ longer w a 16 d) -> dwarf_aggregate_size w k d = Ok (Some z) ->
  exists n r v, (n <= 63)%nat /\ peels w n d r /\ size w false 256 r v /\ z = u64 v.
Proof.
  intros w k d z PL RG SH E. unfold dwarf_aggregate_size in E. destruct (peel_type w d) as [r| |] eqn:P; try discriminate. apply (C69_sound w d r (proj1 PL)) in P as ((n & L & P) & _). destruct (size_inv w PL RG SH _ _ _ _ E) as (v & S & Z). exists n, r, v. auto.
Qed.
Print Assumptions C70_sound_partial.
(* the example without the array over an enumeration *)
Definition et3 : types := Types (tags e_tags) (look e_attrs) (fun d => if d =? 4 then Got 5 else NoMore) e_sib (fun _ => 1) (fun _ => 8) (fun _ => None).
Example C70_sound_nonvacuous : plain et3 /\ ranged et3 /\ (forall d a, ~ longer et3 a 16 d) /\ dwarf_aggregate_size et3 10 9 = Ok (Some 240).
Proof.
  split; [split; [reflexivity|split; [|split]]|split; [|split; [|vm_compute; reflexivity]]].
  - intros d c l T (c0 & K & S) I. cbn in K. destruct (d =? 4); [|discriminate]. injection K as <-.
    assert (B : forall c0 l, siblings et3 c0 l -> 5 <= c0 <= 8 -> forall x, In x l -> 5 <= x <= 8).
    { intros c0 l0 S0. induction S0 as [c1 L1|c1 d1 l1 E1 S1 IH]; intros B0 x I0; [destruct I0 as [<-|[]]; exact B0|]. destruct I0 as [<-|I0]; [exact B0|]. apply IH; [|exact I0]. cbn in E1. unfold e_sib in E1. destruct ((5 <=? c1) && (c1 <? 8)) eqn:X; [injection E1 as <-; lia|]. destruct (c1 =? 15) eqn:Y; [lia|discriminate]. }
    specialize (B 5 l S ltac:(lia) c I). assert (C : c = 5 \/ c = 6 \/ c = 7 \/ c = 8) by lia. destruct C as [->|[->|[->| ->]]]; discriminate.
  - intros d x v E. revert v. unfold et3, t_attr in E. unfold look in E. destruct (find _ e_attrs) as [r|] eqn:X; [|discriminate]. injection E as <-. apply find_some in X as (I & E). cbn in I. destruct I as [<-|I]; [intros v [= <-]; lia|]. repeat (destruct I as [<-|I]; [exfalso; cbn in E; lia|]). destruct I.
  - intros d x v E. revert v. apply (look_range e_attrs (fun x => forall v, av_u x = Some v -> 0 <= v) d AT_bit_stride x); [|exact E]. each.
  - destruct e_ranged as (R & A). split; [exact R|exact A].
  - assert (NR : forall d l, ~ refers et3 d l).
    { intros d l [R|(_ & R)]; cbn in R; unfold look in R; (destruct (find _ e_attrs) as [r|] eqn:X; [|discriminate]); apply find_some in X as (I & E); cbn in I; repeat (destruct I as [<-|I]; [cbn in E; lia|]); destruct I. }
    intros d a L. inversion L; subst. eapply NR; eassumption.
Qed.

(* No call is undefined if the bounds of subranges are within 62 bits, whatever the entries
   are.  Partial: the full claim is about all bounds (C70_overflow_refuted). *)
Theorem C70_defined_partial : forall w, (forall d a x v, t_attr w d a = Some x -> av_s x = Some v -> - (two64 / 4) <= v < two64 / 4 - 1) -> forall k d, dwarf_aggregate_size w k d <> UB.
Proof. intros w SM k d. unfold dwarf_aggregate_size. destruct (peel_type w d); try discriminate. apply aggregate_defined. exact SM. Qed.
Print Assumptions C70_defined_partial.
Example C70_defined_nonvacuous : forall d a x v, t_attr et d a = Some x -> av_s x = Some v -> - (two64 / 4) <= v < two64 / 4 - 1.
Proof. intros d a x v E. revert v. apply (look_range e_attrs (fun x => forall v, av_s x = Some v -> - (two64 / 4) <= v < two64 / 4 - 1) d a x); [|exact E]. each. Qed.

(* Calls end if siblings are at growing addresses, also if types refer to each other in a
   circle. *)
Theorem C70_ends : forall w lo n d k, (forall d c, t_sib w d = Got c -> d < c < n) -> (forall d c, t_kid w d = Got c -> lo <= c) -> n - lo < Z.of_nat k -> 0 < Z.of_nat k -> dwarf_aggregate_size w k d <> Fuel.
Proof. intros w lo n d k S K L P. unfold dwarf_aggregate_size. destruct (peel_type w d); try discriminate. apply (aggregate_ends w lo n S K); assumption. Qed.
Print Assumptions C70_ends.
(* the second: a subrange of itself *)
Example C70_ends_nonvacuous : (forall d c, t_sib et d = Got c -> d < c < 17) /\ (forall d c, t_kid et d = Got c -> 5 <= c) /\ dwarf_aggregate_size (Types (fun _ => 33) (fun _ a => if a =? AT_type then Some (to 1) else None) (fun _ => NoMore) (fun _ => NoMore) (fun _ => 0) (fun _ => 8) (fun _ => None)) 10 1 = Ok None.
Proof.
  split; [|split; [|vm_compute; reflexivity]].
  - intros d c E. cbn in E. unfold e_sib in E. destruct ((5 <=? d) && (d <? 8)) eqn:X; [injection E as <-; lia|]. destruct (d =? 15) eqn:Y; [injection E as <-; lia|discriminate].
  - intros d c E. cbn in E. unfold e_kid in E. repeat (destruct (_ =? _); [injection E as <-; lia|]). discriminate.
Qed.

(* An array over an enumeration of 2 values, of elements of 4 bytes, has 8 bytes; 0 is
   answered, since the code looks for the values among the children of the array. *)
Theorem C70_enumeration_refuted : exists w d v, size w true 256 d v /\ v = 8 /\ forall k, (10 <= k)%nat -> dwarf_aggregate_size w k d = Ok (Some 0).
Proof.
  exists et, 13, ((1 + 1) * 1 * 4). split; [|split; [reflexivity|intros k K; do 10 (destruct k as [|k]; [lia|]); vm_compute; reflexivity]].
  apply (size_array et true 255 13 2 4 [14] 0).
  - none.
  - reflexivity.
  - exists (to 2), 2, 0%nat. split; [own|]. split; [reflexivity|]. split; [|lia]. apply peels_done; [cbn; lia|discriminate].
  - eapply size_given; [own|reflexivity].
  - exists 14. split; [reflexivity|]. apply sib_last. discriminate.
  - apply dims_dim; [|apply dims_nil]. apply dim_enum; [reflexivity|reflexivity|]. exists [15; 16]. split; [exists 15; split; [reflexivity|]; eapply sib_next; [reflexivity|]; apply sib_last; discriminate|]. split.
    + exists 16, (num 1). split; [cbn; auto|]. split; [reflexivity|]. split; [own|reflexivity].
    + intros e a v I T H U. assert (E : integrate et e AT_const_value = Some a) by (apply integrate_has; exact H). destruct I as [<-|[<-|[]]]; vm_compute in E; injection E as <-; cbn in U; injection U as <-; lia.
  - apply dist_size; none.
Qed.
Print Assumptions C70_enumeration_refuted.

(* An array of 0 elements, in C with the upper bound -1, has no size. *)
Definition arr_of (up : av) : types := Types (fun d => if d =? 2 then 36 else if d =? 4 then 1 else 33) (fun d a => if (d =? 2) && (a =? AT_byte_size) then Some (num 1) else if (d =? 4) && (a =? AT_type) then Some (to 2) else if (d =? 5) && (a =? AT_upper_bound) then Some up else if (d =? 1) && (a =? AT_language) then Some (num 12) else None)
  (fun d => if d =? 4 then Got 5 else NoMore) (fun _ => NoMore) (fun _ => 1) (fun _ => 8) (fun _ => None).
Lemma arr_size : forall up u, av_s up = Some u -> -1 <= u -> size (arr_of up) true 256 4 ((u - 0 + 1) * 1 * 1).
Proof.
  intros up u U L. apply (size_array (arr_of up) true 255 4 2 1 [5] 0).
  - none.
  - reflexivity.
  - exists (to 2), 2, 0%nat. split; [own|]. split; [reflexivity|]. split; [|lia]. apply peels_done; [cbn; lia|discriminate].
  - eapply size_given; [own|reflexivity].
  - exists 5. split; [reflexivity|]. apply sib_last. discriminate.
  - apply dims_dim; [|apply dims_nil]. eapply (dim_bounds (arr_of up) true 4 5 up u 0); [reflexivity|none|own|exact U| |right; split; [reflexivity|lia]]. right. split; [none|]. exists (num 12), 12. split; [own|]. split; [reflexivity|]. split; [lia|reflexivity].
  - apply dist_size; none.
Qed.
Theorem C70_empty_refuted : exists w d, size w true 256 d 0 /\ forall k, (10 <= k)%nat -> dwarf_aggregate_size w k d = Ok None.
Proof. exists (arr_of (num (-1))), 4. split; [exact (arr_size (num (-1)) (-1) eq_refl ltac:(lia))|]. intros k K. do 10 (destruct k as [|k]; [lia|]). vm_compute. reflexivity. Qed.
Print Assumptions C70_empty_refuted.

(* The upper bound 2^63 - 1 makes the code overflow a signed number. *)
Theorem C70_overflow_refuted : exists w d v, size w true 256 d v /\ v < two64 /\ forall k, (10 <= k)%nat -> dwarf_aggregate_size w k d = UB.
Proof.
  exists (arr_of (num (two64 / 2 - 1))), 4, ((two64 / 2 - 1 - 0 + 1) * 1 * 1). split; [apply (arr_size (num (two64 / 2 - 1))); [reflexivity|lia]|]. split; [reflexivity|]. intros k K. do 10 (destruct k as [|k]; [lia|]). vm_compute. reflexivity.
Qed.
Print Assumptions C70_overflow_refuted.

(* Sizes of 2^64 and more are reported modulo 2^64, not as an error. *)
Theorem C70_wrap_refuted : exists w d v, ranged w /\ size w false 256 d v /\ v = two64 /\ forall k, (10 <= k)%nat -> dwarf_aggregate_size w k d = Ok (Some 0).
Proof.
  set (w := Types (fun d => if d =? 2 then 36 else if d =? 4 then 1 else 33) (fun d a => if (d =? 2) && (a =? AT_byte_size) then Some (num 4) else if (d =? 4) && (a =? AT_type) then Some (to 2) else if (d =? 5) && (a =? AT_count) then Some (num (two64 / 4)) else None)
    (fun d => if d =? 4 then Got 5 else NoMore) (fun _ => NoMore) (fun _ => 1) (fun _ => 8) (fun _ => None)).
  exists w, 4, (two64 / 4 * 1 * 4). split; [|split; [|split; [reflexivity|]]].
  - split; [|intro; cbn; lia]. intros d a x v E. cbn [w t_attr] in E. repeat (destruct (_ && _) in E; [injection E as <-; cbn; intros [= <-]; lia|]). discriminate.
  - apply (size_array w false 255 4 2 4 [5] 0).
    + none.
    + reflexivity.
    + exists (to 2), 2, 0%nat. split; [own|]. split; [reflexivity|]. split; [|lia]. apply peels_done; [cbn; lia|discriminate].
    + eapply size_given; [own|reflexivity].
    + exists 5. split; [reflexivity|]. apply sib_last. discriminate.
    + apply dims_dim; [|apply dims_nil]. eapply dim_count; [reflexivity|own|reflexivity].
    + apply dist_size; none.
  - intros k K. do 10 (destruct k as [|k]; [lia|]). vm_compute. reflexivity.
Qed.
Print Assumptions C70_wrap_refuted.

(* char a[201]: the upper bound 200 in DW_FORM_data1, as compilers write it, is taken for
   -56, and no size is answered.  The attribute reads as 200 and as -56. *)
Theorem C70_data1_refuted : exists u a w, a_form a = FORM_data1 /\ formudata u a true = Ok 200 /\ formsdata u a = Ok (-56) /\
  t_attr w 5 AT_upper_bound = Some (AV (Some 200) (Some (-56)) None) /\ forall k, (10 <= k)%nat -> dwarf_aggregate_size w k 4 = Ok None.
Proof.
  exists (Cu [200] 0 1 8 4 4 true), (Attr AT_upper_bound FORM_data1 0 []), (arr_of (AV (Some 200) (Some (-56)) None)). split; [reflexivity|]. split; [vm_compute; reflexivity|]. split; [vm_compute; reflexivity|]. split; [reflexivity|].
  intros k K. do 10 (destruct k as [|k]; [lia|]). vm_compute. reflexivity.
Qed.
Print Assumptions C70_data1_refuted.
