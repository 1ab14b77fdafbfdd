(* C95: the debugging sections of a file. *)
From Coq Require Import String.
From Verif Require Import Base BeginModel BeginSpec BeginProof.
Open Scope Z_scope.
Open Scope list_scope.

(* In a file that is opened, each debugging section is the first section of the file that has the name, in any of its forms, and data that can be had, is not in a
   group, and is not empty; if there is none, there is none.  And one of the sections .debug_info, .debug_line and .debug_frame is there. *)
Theorem C95_sections : forall secs t, global_read secs = Dopen t ->
  (forall i N, nth_error names i = Some N -> match t i with Some (k, b) => first_with false N secs k b | None => none_with false N secs end) /\
  exists N k b, In N [bs ".debug_info"; bs ".debug_line"; bs ".debug_frame"] /\ first_with false N secs k b.
Proof.
  intros secs t H. unfold global_read in H. destruct (each no_table 1 secs false) as [t1|] eqn:E; [|discriminate]. cbn [valid_p] in H.
  assert (T : t1 = t /\ (t IDX_info <> None \/ t IDX_line <> None \/ t IDX_frame <> None)).
  { destruct (t1 IDX_info) eqn:A; [injection H as <-; split; [reflexivity | left; congruence]|]. destruct (t1 IDX_line) eqn:B; [injection H as <-; split; [reflexivity | right; left; congruence]|].
    destruct (t1 IDX_frame) eqn:C; [injection H as <-; split; [reflexivity | right; right; congruence] | discriminate]. }
  destruct T as (-> & V).
  assert (M : forall i N, nth_error names i = Some N -> match t i with Some (k, b) => first_with false N secs k b | None => none_with false N secs end).
  { intros i N Hi. pose proof (each_ok false secs no_table 1 t E i N Hi) as X. cbn [no_table] in X. destruct X as [(j & b & F & ->) | (F & ->)]; [replace (1 - 1 + j) with j by lia; exact F | exact F]. }
  split; [exact M|]. destruct V as [V | [V | V]].
  - pose proof (M IDX_info _ eq_refl) as X. destruct (t IDX_info) as [[k b]|]; [|congruence]. exists (bs ".debug_info"), k, b. split; [left; reflexivity | exact X].
  - pose proof (M IDX_line _ eq_refl) as X. destruct (t IDX_line) as [[k b]|]; [|congruence]. exists (bs ".debug_line"), k, b. split; [right; left; reflexivity | exact X].
  - pose proof (M IDX_frame _ eq_refl) as X. destruct (t IDX_frame) as [[k b]|]; [|congruence]. exists (bs ".debug_frame"), k, b. split; [right; right; left; reflexivity | exact X].
Qed.
Print Assumptions C95_sections.

(* A file whose sections can all be read is opened, if one of the three sections is there; else it has no debugging information.  A section header that
   cannot be read makes the file invalid, and nothing is ever read out of bounds. *)
Theorem C95_opens : forall secs,
  ((forall s, In s secs -> d_shdr s = true /\ d_name s <> None /\ d_data s <> None) ->
   ((exists N s b, In N [bs ".debug_info"; bs ".debug_line"; bs ".debug_frame"] /\ In s secs /\ counts false N s b) -> exists t, global_read secs = Dopen t) /\
   ((forall N, In N [bs ".debug_info"; bs ".debug_line"; bs ".debug_frame"] -> none_with false N secs) -> global_read secs = Dnodwarf)) /\
  ((exists s, In s secs /\ d_shdr s = false) -> global_read secs = Dinvalid) /\ global_read secs <> Dub.
Proof.
  intros secs. split; [|split].
  - intros R. destruct (each_some false secs no_table 1 R) as (t & E). unfold global_read. rewrite E. cbn [valid_p].
    assert (M : forall i N, nth_error names i = Some N -> t i = None <-> none_with false N secs).
    { intros i N Hi. pose proof (each_ok false secs no_table 1 t E i N Hi) as X. cbn [no_table] in X. destruct X as [(j & b & (s & F1 & F2 & _) & ->) | (F & ->)]; [|split; auto].
      split; [discriminate|]. intros Nn. exfalso. apply (Nn s b); [|exact F2]. unfold znth in F1. destruct ((0 <=? j - 1) && (j - 1 <? zlen secs)); [exact (nth_error_In _ _ F1) | discriminate]. }
    pose proof (M IDX_info _ eq_refl) as Mi. pose proof (M IDX_line _ eq_refl) as Ml. pose proof (M IDX_frame _ eq_refl) as Mf. split.
    + intros (N & s & b & IN & Is & C). destruct (t IDX_info) eqn:A; [eexists; reflexivity|]. destruct (t IDX_line) eqn:B; [eexists; reflexivity|]. destruct (t IDX_frame) eqn:D; [eexists; reflexivity|].
      exfalso. destruct IN as [<- | [<- | [<- | []]]]; [exact (proj1 Mi eq_refl s b Is C) | exact (proj1 Ml eq_refl s b Is C) | exact (proj1 Mf eq_refl s b Is C)].
    + intros Nn. rewrite (proj2 Mi (Nn _ (or_introl eq_refl))), (proj2 Ml (Nn _ (or_intror (or_introl eq_refl)))), (proj2 Mf (Nn _ (or_intror (or_intror (or_introl eq_refl))))). reflexivity.
  - intros (s & I & S). unfold global_read. enough (E : forall l t k, In s l -> each t k l false = None) by (rewrite (E secs no_table 1 I); reflexivity).
    clear I. induction l as [|x l IH]; intros t k I; [destruct I|]. cbn [each]. destruct I as [-> | I].
    + unfold check_section. rewrite S. reflexivity.
    + destruct (check_section t k x false); [apply IH; exact I | reflexivity].
  - unfold global_read. destruct (each no_table 1 secs false) as [t|]; [|discriminate]. cbn [valid_p]. destruct (t IDX_info), (t IDX_line), (t IDX_frame); discriminate.
Qed.
Print Assumptions C95_opens.

Definition sec_of (nm : string) (b : bytes) : dsec := Dsec true false false (Some (bs nm)) false true (Some b).
Definition file_secs : list dsec :=
  [sec_of ".text" [1]; Dsec true false true (Some (bs ".debug_info")) false true (Some [2]); sec_of ".debug_info_x" [3]; sec_of ".debug_info" []; Dsec true false false (Some (bs ".debug_line")) true false (Some [4]);
   sec_of ".zdebug_info.dwo" [5]; sec_of ".debug_info" [6]; sec_of ".debug_line_str" [7]].
Example C95_nonvacuous : (forall s, In s file_secs -> d_shdr s = true /\ d_name s <> None /\ d_data s <> None) /\
  match global_read file_secs with Dopen t => map t (seq 0 18) = [Some (6, [5]); None; None; None; None; None; Some (8, [7])] ++ repeat None 11 | _ => False end.
Proof. split; [intros s H; cbn in H; decompose [or] H; subst; try contradiction; (split; [reflexivity | split; discriminate])|]. vm_compute. reflexivity. Qed.

(* The sections of a group are never opened: reading the numbers of the sections goes one past the last, outside of the data of the group, in every group that has any data. *)
Theorem C95_group_refuted : forall secs grp d t, d_data grp = Some d -> 4 <= zlen d -> scngrp_read secs grp <> Dopen t /\ scngrp_read secs grp <> Dnodwarf /\
  ((forall cnt n, word_of d cnt = Some n -> 0 <= n <= zlen secs) -> (forall s, In s secs -> d_shdr s = true /\ d_name s <> None /\ d_data s <> None) ->
   d_shdr grp = true -> d_comp grp = false -> scngrp_read secs grp = Dub).
Proof.
  intros secs grp d t D L.
  assert (Inv : forall fuel cnt tb, (Z.of_nat cnt * 4 <= zlen d) -> (Z.of_nat fuel + Z.of_nat cnt > zlen d) -> (0 < fuel)%nat -> 
    (group_loop fuel cnt tb secs d = Dub \/ group_loop fuel cnt tb secs d = Dinvalid) /\
    ((forall s, In s secs -> d_shdr s = true /\ d_name s <> None /\ d_data s <> None) -> (forall cnt n, word_of d cnt = Some n -> 0 <= n <= zlen secs) -> group_loop fuel cnt tb secs d = Dub)).
  { induction fuel as [|fuel IH]; intros cnt tb C F P; [lia|]. cbn [group_loop]. replace (4 * Z.of_nat cnt <=? zlen d) with true by lia.
    destruct (word_of d cnt) as [n|] eqn:W; [|split; [left; reflexivity | reflexivity]].
    assert (C' : Z.of_nat (S cnt) * 4 <= zlen d) by (unfold word_of in W; destruct (Z.leb_spec (4 * Z.of_nat cnt + 4) (zlen d)); [lia | discriminate]).
    destruct (if n =? 0 then Some null_sec else znth secs (n - 1)) as [s|] eqn:Z.
    - destruct (check_section tb n s true) as [t1|] eqn:K.
      + destruct (IH (S cnt) t1 C' ltac:(lia) ltac:(lia)) as (I1 & I2). split; [exact I1 | intros R N; exact (I2 R N)].
      + split; [right; reflexivity|]. intros R _. exfalso. assert (Is : d_shdr s = true /\ d_name s <> None /\ d_data s <> None).
        { destruct (n =? 0); [injection Z as <-; split; [reflexivity | split; discriminate]|]. apply R. unfold znth in Z; destruct ((0 <=? n - 1) && (n - 1 <? zlen secs)); [exact (nth_error_In _ _ Z) | discriminate]. }
        destruct (each_some true [s] tb n ltac:(intros x [<- | []]; exact Is)) as (t' & E). cbn [each] in E. rewrite K in E. discriminate.
    - split; [right; reflexivity|]. intros _ N. exfalso. specialize (N cnt n W). destruct (Z.eqb_spec n 0); [discriminate|]. unfold znth in Z. replace ((0 <=? n - 1) && (n - 1 <? zlen secs)) with true in Z by lia.
      apply nth_error_None in Z. unfold zlen in N. lia. }
  unfold zlen in *. destruct (Inv (S (length d)) 1%nat no_table ltac:(lia) ltac:(lia) ltac:(lia)) as (I1 & I2). unfold scngrp_read. rewrite D. split; [|split].
  - destruct (negb (d_shdr grp)); [discriminate|]. destruct (d_comp grp && negb (d_unz grp)); [discriminate|]. destruct I1 as [-> | ->]; discriminate.
  - destruct (negb (d_shdr grp)); [discriminate|]. destruct (d_comp grp && negb (d_unz grp)); [discriminate|]. destruct I1 as [-> | ->]; discriminate.
  - intros B R Sh Cm. rewrite Sh, Cm. cbn [negb andb]. apply I2; [exact R | exact B].
Qed.
Print Assumptions C95_group_refuted.
Example C95_group_nonvacuous : (forall cnt n, word_of [1; 0; 0; 0; 7; 0; 0; 0] cnt = Some n -> 0 <= n <= zlen file_secs) /\
  scngrp_read file_secs (Dsec true false false (Some []) false true (Some [1; 0; 0; 0; 7; 0; 0; 0])) = Dub.
Proof.
  split; [|vm_compute; reflexivity]. intros [|[|cnt]] n H; [vm_compute in H; injection H as <-; vm_compute; split; discriminate | vm_compute in H; injection H as <-; vm_compute; split; discriminate |].
  unfold word_of in H. change (zlen [1; 0; 0; 0; 7; 0; 0; 0]) with 8 in H. destruct (Z.leb_spec (4 * Z.of_nat (S (S cnt)) + 4) 8); [lia | discriminate].
Qed.
