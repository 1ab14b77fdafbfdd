(* C66: the scopes of an address.  C67: the scopes of an entry. *)
From Verif Require Import Base ScopeModel ScopeSpec ScopeProof Scope2Proof Scope3Proof.
From Coq Require Import ZifyBool ZifyNat.

(* The entries that contain the address form a path of the tree, all contain it, and
   nothing directly below the innermost one does. *)
Inductive sub : forest -> list Z -> forest -> Prop :=
| sub_here : forall f, sub f [] f
| sub_in : forall d b n p g, sub b p g -> sub (FNode d b n) (d :: p) g
| sub_next : forall d b n e p g, sub n (e :: p) g -> sub (FNode d b n) (e :: p) g.
Fixpoint tops (f : forest) : list Z := match f with FNil => [] | FNode d _ n => d :: tops n end.
Lemma containing_spec : forall t f p, containing t f = Some p -> (p <> [] -> path f p) /\ Forall (fun d => t d = Some true) p /\ exists g, sub f p g /\ Forall (fun d => t d = Some false) (tops g).
Proof.
  intros t. induction f as [|d b IHb n IHn]; intros p E; cbn [containing] in E.
  - injection E as <-. split; [congruence|]. split; [constructor|]. exists FNil. split; [constructor|constructor].
  - destruct (t d) as [[|]|] eqn:T; [| |discriminate].
    + destruct (containing t b) as [q|] eqn:Q; [|discriminate]. injection E as <-. destruct (IHb q eq_refl) as (P & F & g & S & G). split; [|split; [constructor; assumption|exists g; split; [constructor; exact S|exact G]]].
      intros _. destruct q; [constructor|apply path_below, P; discriminate].
    + destruct (IHn p E) as (P & F & g & S & G). split; [intro NE; apply path_next, P, NE|]. split; [exact F|]. destruct p as [|e p].
      * exists (FNode d b n). split; [constructor|]. inversion S; subst. cbn [tops]. constructor; assumption.
      * exists g. split; [apply sub_next; exact S|exact G].
Qed.

(* The example: entry 10 is a unit.  11 is an abstract function with a block 12; 13 is a
   function that contains 300-399, in it a block 14 (310-349), in it 15, where 11 is
   inlined (320-329), in that a block 16 (322-325); 17 imports the unit 30, whose function
   31 contains 500-599; 18 is a namespace with a function 19 that contains 700-799; 20 is
   an inlined call (800-899) of a function that is in another unit; 21 is a union with a
   function 22. *)
Record row := Row { r_d : Z; r_tag : Z; r_kid : Z; r_sib : Z; r_ref : Z; r_lo : Z; r_hi : Z }.
Definition rows : list row :=
  [Row 10 17 11 0 0 0 0; Row 11 46 12 13 0 0 0; Row 12 11 0 0 0 0 0; Row 13 46 14 17 0 300 400; Row 14 11 15 0 0 310 350;
   Row 15 29 16 0 11 320 330; Row 16 11 0 0 0 322 326; Row 17 61 0 18 30 0 0; Row 18 57 19 20 0 0 0; Row 19 46 0 0 0 700 800;
   Row 20 29 0 21 99 800 900; Row 21 23 22 0 0 0 0; Row 22 46 0 0 0 0 0; Row 30 60 31 0 0 0 0; Row 31 46 0 0 0 500 600].
Definition row_of (d : Z) : row := match find (fun r => r_d r =? d) rows with Some r => r | None => Row d 0 0 0 0 0 0 end.
Definition nav_of (z : Z) : nav := if z =? 0 then NoMore else Got z.
Definition ref_of (z : Z) : option Z := if z =? 0 then None else Some z.
Definition ew : view := View (fun d => r_tag (row_of d)) (fun d => nav_of (r_kid (row_of d))) (fun d => nav_of (r_sib (row_of d))) (fun d => negb (r_kid (row_of d) =? 0))
  (fun d => ref_of (r_ref (row_of d))) (fun d => ref_of (r_ref (row_of d)))
  (fun d pc => if pc =? 999 then Fails 30 else if pc =? 998 then Fails NO_DEBUG_RANGES else if (r_lo (row_of d) <=? pc) && (pc <? r_hi (row_of d)) then Yes else No).
Definition leaf (d : Z) (n : forest) : forest := FNode d FNil n.
Definition ef : forest :=
  FNode 11 (leaf 12 FNil) (FNode 13 (FNode 14 (FNode 15 (leaf 16 FNil) FNil) FNil) (fapp (leaf 31 FNil) (FNode 18 (leaf 19 FNil) (leaf 20 (leaf 21 FNil))))).
Ltac tree :=
  repeat first
    [ apply after_end; reflexivity | eapply after_next; [reflexivity|]
    | apply below_leaf; reflexivity | eapply below_kids; [reflexivity|reflexivity|]
    | eapply from_import; [reflexivity|reflexivity|reflexivity|cbn; tauto| |]
    | apply from_entry; [discriminate| |] ].
Example ex_tree : unit_tree ew 10 ef. Proof. unfold unit_tree, ef, leaf. cbn [ew v_kid nav_of row_of rows find r_d r_kid Z.eqb Pos.eqb]. tree. Qed.

(* If no entry contains the address the answer is 0. *)
Theorem C66_nothing : forall w pc cu f, unit_tree w cu f -> containing (contains w pc) f = Some [] -> exists k0, forall k, (k0 <= k)%nat -> getscopes w pc k cu = Ok (0, None).
Proof. intros w pc cu f T. exact (scopes_none w pc cu f T). Qed.
Print Assumptions C66_nothing.
Example C66_nothing_nonvacuous : unit_tree ew 10 ef /\ containing (contains ew 5) ef = Some [] /\ containing (contains ew 998) ef = Some [] /\ getscopes ew 5 100 10 = Ok (0, None).
Proof. split; [exact ex_tree|]. vm_compute. auto. Qed.

(* If no entry on the way is an inlined call, the answer is the innermost entry that
   contains the address, the entries around it outwards, and the entry of the unit. *)
Theorem C66_scopes : forall w pc cu f p, unit_tree w cu f -> containing (contains w pc) f = Some p -> p <> [] -> Forall (fun d => v_tag w d <> TAG_inlined_subroutine) p ->
  path f p /\ Forall (fun d => contains w pc d = Some true) p /\ (exists g, sub f p g /\ Forall (fun d => contains w pc d = Some false) (tops g)) /\
  exists k0, forall k, (k0 <= k)%nat -> getscopes w pc k cu = Ok (Z.of_nat (length p) + 1, Some (rev p ++ [cu])).
Proof.
  intros w pc cu f p T C NE F. destruct (containing_spec _ _ _ C) as (P & A & G). split; [exact (P NE)|]. split; [exact A|]. split; [exact G|]. exact (scopes_plain w pc cu f T p C NE F).
Qed.
Print Assumptions C66_scopes.
Example C66_scopes_nonvacuous : unit_tree ew 10 ef /\ containing (contains ew 340) ef = Some [13; 14] /\ Forall (fun d => v_tag ew d <> TAG_inlined_subroutine) [13; 14] /\
  getscopes ew 340 100 10 = Ok (3, Some [14; 13; 10]) /\ getscopes ew 550 100 10 = Ok (2, Some [31; 10]).
Proof. split; [exact ex_tree|]. split; [vm_compute; reflexivity|]. split; [repeat constructor; discriminate|]. vm_compute. auto. Qed.

(* If the innermost inlined call on the way is x, the answer is the entries inside x, x
   itself, and then the entries around the function that is inlined, outwards, not those
   around x.  Partial: the full claim is that there is always such an answer; there is none
   if the function is not in the tree of the unit (C66_foreign_origin_refuted). *)
Theorem C66_inlined_partial : forall w pc cu f outer x inner, unit_tree w cu f -> containing (contains w pc) f = Some (outer ++ x :: inner) ->
  v_tag w x = TAG_inlined_subroutine -> Forall (fun d => v_tag w d <> TAG_inlined_subroutine) inner ->
  exists k0, forall k, (k0 <= k)%nat ->
  match v_origin w x with
  | None => getscopes w pc k cu = Ok (-1, None)
  | Some o => (exists q, path f (q ++ [o]) /\ let s := rev inner ++ x :: rev q ++ [cu] in getscopes w pc k cu = Ok (Z.of_nat (length s), Some s)) \/
              ((forall q, ~ path f (q ++ [o])) /\ getscopes w pc k cu = Ok (0, None))
  end.
Proof. intros w pc cu f outer x inner T. exact (scopes_inlined w pc cu f T outer x inner). Qed.
Print Assumptions C66_inlined_partial.
Example C66_inlined_nonvacuous : unit_tree ew 10 ef /\ containing (contains ew 324) ef = Some ([13; 14] ++ 15 :: [16]) /\ v_tag ew 15 = TAG_inlined_subroutine /\
  Forall (fun d => v_tag ew d <> TAG_inlined_subroutine) [16] /\ v_origin ew 15 = Some 11 /\ path ef ([] ++ [11]) /\ getscopes ew 324 100 10 = Ok (3, Some [16; 15; 10]).
Proof. split; [exact ex_tree|]. split; [vm_compute; reflexivity|]. split; [reflexivity|]. split; [repeat constructor; discriminate|]. split; [reflexivity|]. split; [apply path_here|]. vm_compute. reflexivity. Qed.

(* If whether an entry contains the address cannot be found out, the answer is -1. *)
Theorem C66_error : forall w pc cu f, unit_tree w cu f -> containing (contains w pc) f = None -> exists k0, forall k, (k0 <= k)%nat -> getscopes w pc k cu = Ok (-1, None).
Proof. intros w pc cu f T. exact (scopes_error w pc cu f T). Qed.
Print Assumptions C66_error.
Example C66_error_nonvacuous : unit_tree ew 10 ef /\ containing (contains ew 999) ef = None /\ getscopes ew 999 100 10 = Ok (-1, None).
Proof. split; [exact ex_tree|]. vm_compute. auto. Qed.

(* Whatever the other functions answer, the assertions hold and no parent pointer is
   followed past the entry of the unit. *)
Theorem C66_defined : forall w pc k cu, getscopes w pc k cu <> UB.
Proof. exact getscopes_defined. Qed.
Print Assumptions C66_defined.
(* Two units that import each other. *)
Definition cyc : view := View (fun d => if (d =? 2) || (d =? 4) then 61 else 17) (fun d => if d =? 1 then Got 2 else if d =? 3 then Got 4 else NoMore) (fun _ => NoMore) (fun _ => true)
  (fun d => if d =? 2 then Some 3 else if d =? 4 then Some 1 else None) (fun _ => None) (fun _ _ => Yes).
Example C66_defined_nonvacuous : getscopes cyc 7 10 1 = Ok (-1, None) /\ getscopes ew 324 100 10 = Ok (3, Some [16; 15; 10]).
Proof. vm_compute. auto. Qed.

(* If children and siblings are at growing addresses of a section of n bytes, the call
   ends, also if units import each other. *)
Theorem C66_ends : forall w pc n cu k, forward w n -> (n + 1) * (n + 1) < Z.of_nat k -> exists r, getscopes w pc k cu = Ok r \/ exists e, getscopes w pc k cu = Err e.
Proof.
  intros w pc n cu k FW M. pose proof (getscopes_ends w pc n cu k FW M) as E. pose proof (getscopes_defined w pc k cu) as D. destruct (getscopes w pc k cu) as [r|e| |]; [exists r; left; reflexivity|exists (0, None); right; exists e; reflexivity|contradiction|contradiction].
Qed.
Print Assumptions C66_ends.
Example C66_ends_nonvacuous : forward cyc 5 /\ (5 + 1) * (5 + 1) < Z.of_nat 37.
Proof.
  split; [|reflexivity]. unfold forward. cbn [cyc v_kid v_sib]. split; [|split].
  - intros d c. destruct (d =? 1) eqn:A; [intros [= <-]; lia|]. destruct (d =? 3) eqn:B; [intros [= <-]; lia|discriminate].
  - discriminate.
  - intros d c [H|H]; [|discriminate]. destruct (d =? 1); [injection H as <-; lia|]. destruct (d =? 3); [injection H as <-; lia|discriminate].
Qed.

(* Not every function that contains the address is found: one inside a namespace is not,
   because the namespace itself does not contain it. *)
Theorem C66_namespace_refuted : exists w pc cu f p x, unit_tree w cu f /\ path f (p ++ [x]) /\ v_tag w x = 46 /\ v_haspc w x pc = Yes /\ forall k, (50 <= k)%nat -> getscopes w pc k cu = Ok (0, None).
Proof.
  exists ew, 750, 10, ef, [18], 19. split; [exact ex_tree|]. split.
  { unfold ef. cbn [app fapp leaf]. apply path_next, path_next, path_next, path_below, path_here. }
  split; [reflexivity|]. split; [reflexivity|]. intros k K. do 50 (destruct k as [|k]; [lia|]). vm_compute. reflexivity.
Qed.
Print Assumptions C66_namespace_refuted.

(* An inlined call of a function described in another unit has no scopes at all, although
   it contains the address. *)
Theorem C66_foreign_origin_refuted : exists w pc cu f x, unit_tree w cu f /\ containing (contains w pc) f = Some [x] /\ v_origin w x <> None /\ forall k, (50 <= k)%nat -> getscopes w pc k cu = Ok (0, None).
Proof.
  exists ew, 850, 10, ef, 20. split; [exact ex_tree|]. split; [vm_compute; reflexivity|]. split; [discriminate|]. intros k K. do 50 (destruct k as [|k]; [lia|]). vm_compute. reflexivity.
Qed.
Print Assumptions C66_foreign_origin_refuted.

(* The scopes of an entry are the entry, the entries around it outwards, and the entry of
   the unit; 0 if it is not in the tree.  Partial: the full claim is about every entry of
   the unit, also the unit's own and those below entries that are not scopes
   (C67_own_refuted, C67_union_refuted). *)
Theorem C67_scopes_partial : forall w cu f x, unit_tree w cu f ->
  ((exists q, path f (q ++ [x])) -> exists q k0, path f (q ++ [x]) /\ forall k, (k0 <= k)%nat -> getscopes_die w k cu x = Ok (Z.of_nat (length q) + 2, Some (x :: rev q ++ [cu]))) /\
  ((forall q, ~ path f (q ++ [x])) -> exists k0, forall k, (k0 <= k)%nat -> getscopes_die w k cu x = Ok (0, None)).
Proof.
  intros w cu f x T. destruct (scopes_die w cu f x T) as (k0 & H). destruct (occurrence x f) as [p|] eqn:O.
  - destruct (occurrence_some _ _ _ O) as (P & q & ->). split.
    + intros _. exists q, k0. split; [exact P|]. intros k K. rewrite (H k K), rev_app_distr, app_length. cbn [rev app length]. do 2 f_equal. lia.
    + intros N. exfalso. exact (N q P).
  - split; [intros (q & Q); exfalso; exact (proj1 (occurrence_none x f) O q Q)|]. intros _. exists k0. exact H.
Qed.
Print Assumptions C67_scopes_partial.
Example C67_scopes_nonvacuous : unit_tree ew 10 ef /\ path ef ([13; 14; 15] ++ [16]) /\ getscopes_die ew 100 10 16 = Ok (5, Some [16; 15; 14; 13; 10]) /\ getscopes_die ew 100 10 77 = Ok (0, None).
Proof. split; [exact ex_tree|]. split; [unfold ef; apply path_next; cbn [app]; do 3 apply path_below; apply path_here|]. vm_compute. auto. Qed.

(* Whatever the other functions answer, the assertion holds. *)
Theorem C67_defined : forall w k cu x, getscopes_die w k cu x <> UB.
Proof. exact getscopes_die_safe. Qed.
Print Assumptions C67_defined.
Example C67_defined_nonvacuous : getscopes_die cyc 10 1 9 = Ok (-1, None). Proof. vm_compute. reflexivity. Qed.

(* The call ends if children and siblings are at growing addresses. *)
Theorem C67_ends : forall w n cu x k, forward w n -> (n + 1) * (n + 1) < Z.of_nat k -> getscopes_die w k cu x <> Fuel.
Proof. exact getscopes_die_ends. Qed.
Print Assumptions C67_ends.
Example C67_ends_nonvacuous : forward cyc 5 /\ (5 + 1) * (5 + 1) < Z.of_nat 37. Proof. exact C66_ends_nonvacuous. Qed.

(* The unit's own entry has no scopes, not even itself. *)
Theorem C67_own_refuted : exists w cu f, unit_tree w cu f /\ forall k, (50 <= k)%nat -> getscopes_die w k cu cu = Ok (0, None).
Proof. exists ew, 10, ef. split; [exact ex_tree|]. intros k K. do 50 (destruct k as [|k]; [lia|]). vm_compute. reflexivity. Qed.
Print Assumptions C67_own_refuted.

(* Nor has an entry below a union, although it is in the unit. *)
Theorem C67_union_refuted : exists w cu f u x, unit_tree w cu f /\ path f [u] /\ v_tag w u = 23 /\ v_haskids w u = true /\ v_kid w u = Got x /\ forall k, (50 <= k)%nat -> getscopes_die w k cu x = Ok (0, None).
Proof.
  exists ew, 10, ef, 21, 22. split; [exact ex_tree|]. split; [unfold ef; cbn [fapp leaf]; do 5 apply path_next; apply path_here|]. split; [reflexivity|]. split; [reflexivity|]. split; [reflexivity|].
  intros k K. do 50 (destruct k as [|k]; [lia|]). vm_compute. reflexivity.
Qed.
Print Assumptions C67_union_refuted.
