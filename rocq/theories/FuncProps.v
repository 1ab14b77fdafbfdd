(* Properties C74, C75, C76: the functions of a unit, the inlined instances of a function, the
   variables of nested scopes. *)
From Verif Require Import Base ScopeModel ScopeSpec ScopeProof FuncModel FuncSpec FuncProof.
From Verif Require SegProof.
From Coq Require Import ZifyBool ZifyNat.

(* Missing: a tree counts only entries below those that can own scopes, so functions defined in
   a union are not among them (C74_union_refuted). *)
Theorem C74_functions_partial : forall B w declared (cb : B -> Z -> B * Z) lang cu f, unit_tree w cu f -> v_tag w cu = 17 ->
  exists k0, forall k b, (k0 <= k)%nat -> getfuncs w declared cb k lang cu 0 b = let '(b', r, x) := show cb (functions w declared lang f) b in Ok (b', if r =? 1 then x else r).
Proof. intros B w declared cb lang cu f T C. destruct (getfuncs_ok w declared cb lang cu f T C) as (k0 & H). exists k0. intros k b K. apply (H k 0 b K). Qed.
Print Assumptions C74_functions_partial.
(* 10: the unit.  1: a function with 2: a block with 3: a function.  4: a declaration.  5: a
   class with 6: a function.  7: a function. *)
Definition ex_view : view := {|
  v_tag := fun d => if d =? 10 then 17 else if d =? 2 then 11 else if d =? 5 then 2 else 46;
  v_kid := fun d => if d =? 10 then Got 1 else if d =? 1 then Got 2 else if d =? 2 then Got 3 else if d =? 5 then Got 6 else NoMore;
  v_sib := fun d => if d =? 1 then Got 4 else if d =? 4 then Got 5 else if d =? 5 then Got 7 else NoMore;
  v_haskids := fun d => (d =? 10) || (d =? 1) || (d =? 2) || (d =? 5);
  v_import := fun _ => None; v_origin := fun _ => None; v_haspc := fun _ _ => No |}.
Definition ex_declared (d : Z) : bool := d =? 4.
Definition ex_tree : forest := FNode 1 (FNode 2 (FNode 3 FNil FNil) FNil) (FNode 4 FNil (FNode 5 (FNode 6 FNil FNil) (FNode 7 FNil FNil))).
Lemma ex_tree_ok : unit_tree ex_view 10 ex_tree.
Proof.
  cbn. apply from_entry; [discriminate| |].
  - eapply below_kids; [reflexivity|reflexivity|]. apply from_entry; [discriminate| |apply after_end; reflexivity]. eapply below_kids; [reflexivity|reflexivity|]. apply from_entry; [discriminate|apply below_leaf; reflexivity|apply after_end; reflexivity].
  - eapply after_next; [reflexivity|]. apply from_entry; [discriminate|apply below_leaf; reflexivity|]. eapply after_next; [reflexivity|]. apply from_entry; [discriminate| |].
    + eapply below_kids; [reflexivity|reflexivity|]. apply from_entry; [discriminate|apply below_leaf; reflexivity|apply after_end; reflexivity].
    + eapply after_next; [reflexivity|]. apply from_entry; [discriminate|apply below_leaf; reflexivity|apply after_end; reflexivity].
Qed.
Definition go : list Z -> Z -> bool := fun _ _ => false.
Definition stop3 : list Z -> Z -> bool := fun _ d => d =? 3.
Example C74_functions_nonvacuous : unit_tree ex_view 10 ex_tree /\ functions ex_view ex_declared 4 ex_tree = [1; 3; 6; 7] /\ functions ex_view ex_declared 12 ex_tree = [1; 3; 7] /\
  getfuncs ex_view ex_declared (keeps go) 20 4 10 0 [] = Ok ([1; 3; 6; 7], 0) /\ getfuncs ex_view ex_declared (keeps stop3) 20 4 10 0 [] = Ok ([1; 3], 3) /\
  getfuncs ex_view ex_declared (keeps stop3) 20 4 10 3 [] = Ok ([6; 7], 0).
Proof. split; [apply ex_tree_ok|]. vm_compute. repeat split. Qed.

(* going on behind a function *)
Theorem C74_resume : forall B w declared (cb : B -> Z -> B * Z) lang cu f, unit_tree w cu f -> v_tag w cu = 17 ->
  exists k0, forall k x b, (k0 <= k)%nat -> x <> 0 -> In x (functions w declared lang f) ->
  getfuncs w declared cb k lang cu x b = let '(b', r, y) := show cb (behind x (functions w declared lang f)) b in Ok (b', if r =? 1 then y else r).
Proof.
  intros B w declared cb lang cu f T C. destruct (getfuncs_ok w declared cb lang cu f T C) as (k0 & H). exists k0. intros k x b K X I. rewrite (H k x b K). unfold shown. replace (x =? 0) with false by lia. rewrite behind_filter; [reflexivity|]. unfold functions in I. apply filter_In in I. apply I.
Qed.
Print Assumptions C74_resume.
Example C74_resume_nonvacuous : In 3 (functions ex_view ex_declared 4 ex_tree) /\ behind 3 (functions ex_view ex_declared 4 ex_tree) = [6; 7].
Proof. vm_compute. auto. Qed.

(* The functions are shown once each in order, wherever the callback stops.  Missing: units
   that are imported twice, whose functions are in the tree twice (C74_twice_refuted). *)
Theorem C74_once_partial : forall w declared stop lang cu f, unit_tree w cu f -> v_tag w cu = 17 -> NoDup (functions w declared lang f) -> (forall d, In d (functions w declared lang f) -> d <> 0) ->
  exists k0, forall k n, (k0 <= k)%nat -> (length (functions w declared lang f) < n)%nat ->
  again (fun token seen => getfuncs w declared (keeps stop) k lang cu token seen) n 0 [] = Some (functions w declared lang f).
Proof.
  intros w declared stop lang cu f T C ND NZ. destruct (getfuncs_ok w declared (keeps stop) lang cu f T C) as (k0 & H). exists k0. intros k n K L.
  apply (again_ok _ stop (functions w declared lang f) ND NZ) with (rest := functions w declared lang f); [|reflexivity|left; auto|exact L].
  intros off seen O. rewrite H by exact K. unfold shown. destruct (off =? 0) eqn:Z0; [reflexivity|]. destruct O as [O|O]; [lia|]. rewrite behind_filter; [reflexivity|]. apply filter_In in O. apply O.
Qed.
Print Assumptions C74_once_partial.
Example C74_once_nonvacuous : NoDup (functions ex_view ex_declared 4 ex_tree) /\ again (fun token seen => getfuncs ex_view ex_declared (keeps (fun _ _ => true)) 20 4 10 token seen) 5 0 [] = Some [1; 3; 6; 7].
Proof. split; [vm_compute; repeat (constructor; [cbn; lia|]); constructor|vm_compute; reflexivity]. Qed.

(* whatever the entries are, only defining functions are shown, and the call is defined *)
Theorem C74_only : forall w declared stop lang cu k off, match getfuncs w declared (keeps stop) k lang cu off [] with
  | Ok (seen, _) => forall d, In d seen -> v_tag w d = 46 /\ declared d = false | UB => False | _ => True end.
Proof.
  intros w declared stop lang cu k off. unfold getfuncs. destruct (negb _); [intros d []|].
  pose (I := fun v : finfo (list Z) => forall d, In d (fi_b v) -> v_tag w d = 46 /\ declared d = false).
  assert (P : forall depth d l v, I v -> match tree_visitor w declared (keeps stop) (c_lang lang) depth (d :: l) v with Ok (v, _, _) => I v | Err _ => True | _ => False end).
  { intros depth d l v H. unfold tree_visitor. destruct (_ && _ && _ && _); [exact H|]. destruct (negb (fi_start v =? 0)); [destruct (d =? fi_start v); exact H|]. destruct (negb (v_tag w d =? TAG_subprogram) || declared d) eqn:E; [exact H|]. unfold keeps. intros x X. cbn [fi_b] in X. apply in_app_or in X as [X|[<-|[]]]; [exact (H x X)|]. unfold TAG_subprogram in E. split; [lia|destruct (declared d); [rewrite orb_true_r in E; discriminate|reflexivity]]. }
  pose proof (visit_inv w (finfo (list Z)) _ I P k 0 cu [] [] (Finfo off 0 []) ltac:(intros d [])) as V. destruct (visit_scopes _ _ _ _ _ _ _ _) as [[v r]|e| |]; cbn [obind]; [exact V|exact Logic.I|exact V|exact Logic.I].
Qed.
Print Assumptions C74_only.
Example C74_only_nonvacuous : getfuncs ex_view ex_declared (keeps go) 20 4 10 0 [] = Ok ([1; 3; 6; 7], 0) /\ ex_declared 4 = true.
Proof. split; vm_compute; reflexivity. Qed.

(* A unit that is not a compile unit has no functions: the call fails. *)
Theorem C74_unit : forall B w declared (cb : B -> Z -> B * Z) k lang cu off b, v_tag w cu <> 17 -> getfuncs w declared cb k lang cu off b = Ok (b, -1).
Proof. intros B w declared cb k lang cu off b N. unfold getfuncs, TAG_compile_unit. replace (v_tag w cu =? 17) with false by lia. reflexivity. Qed.
Print Assumptions C74_unit.
Example C74_unit_nonvacuous : v_tag ex_view 1 <> 17 /\ getfuncs ex_view ex_declared (keeps go) 20 4 1 0 [] = Ok ([], -1).
Proof. split; [vm_compute; congruence|reflexivity]. Qed.

(* A unit that imports a partial unit twice: when the callback always stops, the second time
   its function is met the token is that of the first time, and the calls never end. *)
Definition twice_view : view := {|
  v_tag := fun d => if d =? 10 then 17 else if (d =? 1) || (d =? 2) then 61 else if d =? 50 then 60 else 46;
  v_kid := fun d => if d =? 10 then Got 1 else if d =? 50 then Got 5 else NoMore;
  v_sib := fun d => if d =? 1 then Got 2 else NoMore;
  v_haskids := fun d => (d =? 10) || (d =? 50); v_import := fun d => if (d =? 1) || (d =? 2) then Some 50 else None; v_origin := fun _ => None; v_haspc := fun _ _ => No |}.
Theorem C74_twice_refuted : exists w declared lang cu f, unit_tree w cu f /\ v_tag w cu = 17 /\ functions w declared lang f = [5; 5] /\ exists k, forall n, again (fun token seen => getfuncs w declared (keeps (fun _ _ => true)) k lang cu token seen) n 0 [] = None.
Proof.
  exists twice_view, (fun _ => false), 4, 10, (fapp (FNode 5 FNil FNil) (fapp (FNode 5 FNil FNil) FNil)).
  assert (F5 : forall i, from twice_view i 5 (FNode 5 FNil FNil)) by (intro i; apply from_entry; [discriminate|apply below_leaf; reflexivity|apply after_end; reflexivity]).
  split; [cbn; apply (from_import twice_view [] 1 50 5 (FNode 5 FNil FNil)); [reflexivity|reflexivity|reflexivity|intros []|apply F5|]; eapply after_next; [reflexivity|]; apply (from_import twice_view [] 2 50 5 (FNode 5 FNil FNil) FNil); [reflexivity|reflexivity|reflexivity|intros []|apply F5|apply after_end; reflexivity]|].
  split; [reflexivity|]. split; [reflexivity|]. exists 20%nat.
  assert (G : forall n seen, again (fun token seen => getfuncs twice_view (fun _ => false) (keeps (fun _ _ => true)) 20 4 10 token seen) n 5 seen = None).
  { induction n as [|n IH]; intro seen; [reflexivity|]. cbn [again]. replace (getfuncs twice_view (fun _ => false) (keeps (fun _ _ => true)) 20 4 10 5 seen) with (Ok (seen ++ [5], 5)) by (cbv -[app]; reflexivity). cbn [Z.eqb]. apply IH. }
  intros [|n]; [reflexivity|]. cbn [again]. replace (getfuncs twice_view (fun _ => false) (keeps (fun _ _ => true)) 20 4 10 0 []) with (Ok ([5], 5)) by (vm_compute; reflexivity). cbn [Z.eqb]. apply G.
Qed.
Print Assumptions C74_twice_refuted.
(* A function defined in a union is not shown. *)
Definition union_view : view := {|
  v_tag := fun d => if d =? 10 then 17 else if d =? 1 then 23 else 46;
  v_kid := fun d => if d =? 10 then Got 1 else if d =? 1 then Got 2 else NoMore;
  v_sib := fun _ => NoMore; v_haskids := fun d => (d =? 10) || (d =? 1); v_import := fun _ => None; v_origin := fun _ => None; v_haspc := fun _ _ => No |}.
Theorem C74_union_refuted : exists w declared cu u x, v_tag w cu = 17 /\ v_kid w cu = Got u /\ v_tag w u = 23 /\ v_kid w u = Got x /\ v_tag w x = 46 /\ declared x = false /\
  forall k, (20 <= k)%nat -> getfuncs w declared (keeps go) k 4 cu 0 [] = Ok ([], 0).
Proof.
  exists union_view, (fun _ => false), 10, 1, 2. repeat (split; [reflexivity|]). intros k K. destruct k as [|k]; [lia|]. reflexivity.
Qed.
Print Assumptions C74_union_refuted.

(* Missing: an inlined entry whose origin cannot be had (C75_bad_origin_refuted), and instances
   in other units than the one of the function (C75_other_unit_refuted). *)
Theorem C75_instances_partial : forall B w (cb : B -> Z -> B * Z) origin func cu f, unit_tree w cu f -> Forall (fun d => v_tag w d = 29 -> origin d <> BadOrigin) (entries (fun _ => true) f) ->
  exists k0, forall k b, (k0 <= k)%nat -> inline_instances w cb origin k cu func b = let '(b', r, _) := show cb (instances w (fun d => match origin d with Origin o => Some o | _ => None end) func f) b in Ok (b', r).
Proof. intros B w cb origin func cu f T F. destruct (unit_walk w cu f T) as (k0 & _ & W). exists k0. intros k b K. unfold inline_instances. rewrite W by exact K. apply (tv_instances w cb origin func f 0 [cu] b F). Qed.
Print Assumptions C75_instances_partial.
(* 10: the unit.  1: the abstract function, 2: a function with 3: an instance with 4: a block
   with 5: an instance of 1; 6: an instance of another *)
Definition inl_view : view := {|
  v_tag := fun d => if d =? 10 then 17 else if (d =? 3) || (d =? 5) || (d =? 6) then 29 else if d =? 4 then 11 else 46;
  v_kid := fun d => if d =? 10 then Got 1 else if d =? 2 then Got 3 else if d =? 3 then Got 4 else if d =? 4 then Got 5 else NoMore;
  v_sib := fun d => if d =? 1 then Got 2 else if d =? 3 then Got 6 else NoMore;
  v_haskids := fun d => (d =? 10) || (d =? 2) || (d =? 3) || (d =? 4); v_import := fun _ => None; v_origin := fun _ => None; v_haspc := fun _ _ => No |}.
Definition inl_origin (d : Z) : oref := if (d =? 3) || (d =? 5) then Origin 1 else if d =? 6 then Origin 99 else NoOrigin.
Definition inl_tree : forest := FNode 1 FNil (FNode 2 (FNode 3 (FNode 4 (FNode 5 FNil FNil) FNil) (FNode 6 FNil FNil)) FNil).
Lemma inl_tree_ok : unit_tree inl_view 10 inl_tree.
Proof.
  cbn. apply from_entry; [discriminate|apply below_leaf; reflexivity|]. eapply after_next; [reflexivity|]. apply from_entry; [discriminate| |apply after_end; reflexivity]. eapply below_kids; [reflexivity|reflexivity|]. apply from_entry; [discriminate| |].
  - eapply below_kids; [reflexivity|reflexivity|]. apply from_entry; [discriminate| |apply after_end; reflexivity]. eapply below_kids; [reflexivity|reflexivity|]. apply from_entry; [discriminate|apply below_leaf; reflexivity|apply after_end; reflexivity].
  - eapply after_next; [reflexivity|]. apply from_entry; [discriminate|apply below_leaf; reflexivity|apply after_end; reflexivity].
Qed.
Example C75_instances_nonvacuous : unit_tree inl_view 10 inl_tree /\ Forall (fun d => v_tag inl_view d = 29 -> inl_origin d <> BadOrigin) (entries (fun _ => true) inl_tree) /\
  inline_instances inl_view (keeps go) inl_origin 20 10 1 [] = Ok ([3; 5], 0) /\ inline_instances inl_view (keeps stop3) inl_origin 20 10 1 [] = Ok ([3], 1).
Proof. split; [apply inl_tree_ok|]. split; [cbn; repeat (apply Forall_cons; [cbn; discriminate|]); apply Forall_nil|]. split; vm_compute; reflexivity. Qed.
(* whatever the entries are, only instances of the function are shown *)
Theorem C75_only : forall w origin func stop cu k, match inline_instances w (keeps stop) origin k cu func [] with
  | Ok (seen, _) => forall d, In d seen -> v_tag w d = 29 /\ origin d = Origin func | UB => False | _ => True end.
Proof.
  intros w origin func stop cu k. unfold inline_instances. pose (I := fun v : list Z => forall d, In d v -> v_tag w d = 29 /\ origin d = Origin func).
  assert (P : forall depth d l v, I v -> match inline_visitor w (keeps stop) origin func depth (d :: l) v with Ok (v, _, _) => I v | Err _ => True | _ => False end).
  { intros depth d l v H. unfold inline_visitor, TAG_inlined_subroutine. destruct (v_tag w d =? 29) eqn:TG; cbn [negb]; [|exact H]. destruct (origin d) as [| |o] eqn:O; [exact H|exact H|]. destruct (o =? func) eqn:E; cbn [negb]; [|exact H]. unfold keeps. intros x X. apply in_app_or in X as [X|[<-|[]]]; [exact (H x X)|]. split; [lia|]. rewrite O. f_equal. lia. }
  exact (visit_inv w (list Z) _ I P k 0 cu [] [] [] ltac:(intros d [])).
Qed.
Print Assumptions C75_only.
Example C75_only_nonvacuous : inline_instances inl_view (keeps go) inl_origin 20 10 1 [] = Ok ([3; 5], 0).
Proof. vm_compute. reflexivity. Qed.
(* What dwarf_func_inline says of DW_AT_inline: 0 without one, and for functions that are not
   inlined and were not declared inline; 1 for those that are inlined. *)
Theorem C75_inline : forall v, (func_inline (Some v) = 1 <-> v = 1 \/ v = 3) /\ (func_inline (Some v) = 0 <-> v <> 1 /\ v <> 2 /\ v <> 3) /\ func_inline None = 0.
Proof. intro v. unfold func_inline. destruct (v =? 0) eqn:A, (v =? 2) eqn:B, (v =? 1) eqn:C, (v =? 3) eqn:D; cbn [orb]; repeat split; intros; try lia; try reflexivity. Qed.
Print Assumptions C75_inline.
Example C75_inline_nonvacuous : func_inline (Some 3) = 1 /\ func_inline (Some 0) = 0.
Proof. split; reflexivity. Qed.
(* An inlined entry whose origin cannot be had ends the enumeration with the same result as a
   callback that stops, and instances behind it are not shown. *)
Theorem C75_bad_origin_refuted : exists w origin cu func f x, unit_tree w cu f /\ In x (entries (fun _ => true) f) /\ v_tag w x = 29 /\ origin x = Origin func /\ inline_instances w (keeps go) origin 20 cu func [] = Ok ([], 1).
Proof. exists inl_view, (fun d => if d =? 3 then BadOrigin else inl_origin d), 10, 1, inl_tree, 5. split; [apply inl_tree_ok|]. vm_compute. auto 10. Qed.
Print Assumptions C75_bad_origin_refuted.
(* The abstract function is in a partial unit that another unit imports: its instances in that
   unit are not shown, since only the unit of the function is walked. *)
Definition pu_view : view := {|
  v_tag := fun d => if d =? 10 then 17 else if d =? 1 then 61 else if d =? 50 then 60 else if d =? 3 then 29 else 46;
  v_kid := fun d => if d =? 10 then Got 1 else if d =? 50 then Got 5 else if d =? 2 then Got 3 else NoMore;
  v_sib := fun d => if d =? 1 then Got 2 else NoMore;
  v_haskids := fun d => (d =? 10) || (d =? 50) || (d =? 2); v_import := fun d => if d =? 1 then Some 50 else None; v_origin := fun _ => None; v_haspc := fun _ _ => No |}.
Theorem C75_other_unit_refuted : exists w origin pu cu func f g x, unit_tree w pu f /\ In func (entries (fun _ => true) f) /\ unit_tree w cu g /\ In func (entries (fun _ => true) g) /\ In x (entries (fun _ => true) g) /\ v_tag w x = 29 /\ origin x = Origin func /\
  inline_instances w (keeps go) origin 20 pu func [] = Ok ([], 0).
Proof.
  exists pu_view, (fun d => if d =? 3 then Origin 5 else NoOrigin), 50, 10, 5, (FNode 5 FNil FNil), (fapp (FNode 5 FNil FNil) (FNode 2 (FNode 3 FNil FNil) FNil)), 3.
  assert (F5 : forall i, from pu_view i 5 (FNode 5 FNil FNil)) by (intro i; apply from_entry; [discriminate|apply below_leaf; reflexivity|apply after_end; reflexivity]).
  split; [cbn; apply F5|]. split; [left; reflexivity|]. split; [cbn; apply (from_import pu_view [] 1 50 5 (FNode 5 FNil FNil)); [reflexivity|reflexivity|reflexivity|intros []|apply F5|]; eapply after_next; [reflexivity|]; apply from_entry; [discriminate| |apply after_end; reflexivity]; eapply below_kids; [reflexivity|reflexivity|]; apply from_entry; [discriminate|apply below_leaf; reflexivity|apply after_end; reflexivity]|].
  split; [vm_compute; auto|]. split; [vm_compute; auto|]. split; [reflexivity|]. split; [reflexivity|]. vm_compute. reflexivity.
Qed.
Print Assumptions C75_other_unit_refuted.

(* The variable that a name stands for.  Missing: a scope with the flag for children and none
   makes the call fail (C76_empty_refuted); a second entry of the name in one scope is not
   looked at (C76_second_refuted); what file_is says of files is not that it is the one
   asked for (C76_file_refuted, C76_other_file_refuted). *)
Theorem C76_found_partial : forall w name udata srcfiles q scopes ls os skip, Forall2 (inside w) scopes ls -> Forall2 (first_named w name (q_name q)) ls os -> 0 <= skip ->
  exists k0, forall k, (k0 <= k)%nat ->
  let want := wanted udata srcfiles (q_file q) (q_line q) (q_col q) in
  (getscopevar w name udata srcfiles k q 0 scopes skip = Ok (-2, None) /\ forall i s d, In (i, s, d) (skipn (Z.to_nat skip) (places 0 scopes os)) -> ~ want s d) \/
  exists i s d l1 l2, getscopevar w name udata srcfiles k q 0 scopes skip = Ok (i, Some d) /\ skipn (Z.to_nat skip) (places 0 scopes os) = l1 ++ (i, s, d) :: l2 /\ want s d /\ forall i' s' d', In (i', s', d') l1 -> ~ want s' d'.
Proof.
  intros w name udata srcfiles q scopes ls os skip I F S0. destruct (var_ok w name udata srcfiles q scopes ls I) as (k0 & H). exists k0. intros k K. rewrite (H k 0 skip K S0).
  assert (E : os = map (find (is_named w name q)) ls). { clear - F. induction F as [|l o ls os FN F IH]; [reflexivity|]. cbn [map]. f_equal; [|exact IH]. pose proof (first_named_ok w name q l) as G. destruct o as [d|], (find (is_named w name q) l) as [d'|]; cbn [first_named] in *; [|exfalso|exfalso|reflexivity].
    - destruct FN as (a1 & a2 & -> & N1 & A1), G as (b1 & b2 & EQ & N2 & B1). clear - EQ N1 N2 A1 B1. revert b1 EQ B1. induction a1 as [|x a1 IH]; intros [|y b1] EQ B1; cbn [app] in EQ; injection EQ as E1 E2; try congruence.
      + apply Forall_cons_iff in B1 as (B1 & _). subst y. contradiction.
      + apply Forall_cons_iff in A1 as (A1 & _). subst x. contradiction.
      + apply Forall_cons_iff in A1 as (_ & A1). apply Forall_cons_iff in B1 as (_ & B1). exact (IH A1 b1 E2 B1).
    - destruct FN as (a1 & a2 & -> & N1 & A1). rewrite Forall_app, Forall_cons_iff in G. apply G. exact N1.
    - destruct G as (a1 & a2 & -> & N1 & A1). rewrite Forall_app, Forall_cons_iff in FN. apply FN. exact N1. }
  rewrite <- E. clear - name. generalize (skipn (Z.to_nat skip) (places 0 scopes os)). intro l. cbn zeta. set (want := wanted _ _ _ _ _). induction l as [|[[i s] d] l IH]; cbn [pick]; [left; split; [reflexivity|intros i s d []]|].
  destruct (accept_ok name udata srcfiles q s d) as (b & -> & B). cbn [obind]. destruct b.
  - right. exists i, s, d, [], l. split; [reflexivity|]. split; [reflexivity|]. split; [apply B; reflexivity|intros i' s' d' []].
  - assert (NW : ~ want s d) by (intro W; apply B in W; discriminate). destruct IH as [(E & N)|(i1 & s1 & d1 & l1 & l2 & E & L & W & N)].
    + left. split; [exact E|]. intros i' s' d' [X|X]; [injection X as <- <- <-; exact NW|exact (N i' s' d' X)].
    + right. exists i1, s1, d1, ((i, s, d) :: l1), l2. split; [exact E|]. split; [rewrite L; reflexivity|]. split; [exact W|]. intros i' s' d' [X|X]; [injection X as <- <- <-; exact NW|exact (N i' s' d' X)].
Qed.
Print Assumptions C76_found_partial.
(* 1: a block with a parameter 11 y and a variable 12 x; 2: a function with 13 x.  12 is in file
   1 line 5, 13 in file 1 line 3. *)
Definition var_view : view := {|
  v_tag := fun d => if d =? 1 then 11 else if d =? 2 then 46 else if d =? 11 then 5 else 52;
  v_kid := fun d => if d =? 1 then Got 11 else if d =? 2 then Got 13 else NoMore; v_sib := fun d => if d =? 11 then Got 12 else NoMore;
  v_haskids := fun d => (d =? 1) || (d =? 2); v_import := fun _ => None; v_origin := fun _ => None; v_haspc := fun _ _ => No |}.
Definition var_name (d : Z) : option bytes := if d =? 11 then Some [121] else if (d =? 12) || (d =? 13) then Some [120] else None.
Definition var_data (d a : Z) : option Z := if a =? 58 then Some 1 else if a =? 59 then Some (if d =? 12 then 5 else 3) else None.
Definition var_files (_ : Z) : option (list bytes) := Some [[63]; [97; 46; 99]].
Example C76_found_nonvacuous : Forall2 (inside var_view) [1; 2] [[11; 12]; [13]] /\ Forall2 (first_named var_view var_name [120]) [[11; 12]; [13]] [Some 12; Some 13] /\
  getscopevar var_view var_name var_data var_files 9 (Request [120] None 0 0) 0 [1; 2] 0 = Ok (0, Some 12) /\
  getscopevar var_view var_name var_data var_files 9 (Request [120] None 0 0) 0 [1; 2] 1 = Ok (1, Some 13) /\
  getscopevar var_view var_name var_data var_files 9 (Request [120] (Some [97; 46; 99]) 3 0) 0 [1; 2] 0 = Ok (1, Some 13) /\
  getscopevar var_view var_name var_data var_files 9 (Request [120] (Some [97; 46; 99]) 4 0) 0 [1; 2] 0 = Ok (-2, None).
Proof.
  split; [constructor; [|constructor; [|constructor]]; cbn|].
  - exists 11. split; [reflexivity|]. eapply row_more; [reflexivity|]. apply row_last. intros d'; vm_compute; discriminate.
  - exists 13. split; [reflexivity|]. apply row_last. intros d'; vm_compute; discriminate.
  - split; [constructor; [|constructor; [|constructor]]|vm_compute; repeat split].
    + exists [11], []. split; [reflexivity|]. split; [split; [left; reflexivity|reflexivity]|]. constructor; [|constructor]. intros (_ & H). discriminate.
    + exists [], []. split; [reflexivity|]. split; [split; [left; reflexivity|reflexivity]|constructor].
Qed.
(* never undefined, whatever the entries are *)
Theorem C76_defined : forall w name udata srcfiles k q scopes out skip, match getscopevar w name udata srcfiles k q out scopes skip with UB => False | _ => True end.
Proof.
  intros w name udata srcfiles k q. assert (L : forall k s d skip, match scope_loop w name udata srcfiles k q s d skip with UB => False | _ => True end).
  { clear k. induction k as [|k IH]; intros s d skip; [exact Logic.I|]. cbn [scope_loop]. assert (NX : match (match v_sib w d with Got d1 => scope_loop w name udata srcfiles k q s d1 skip | _ => Ok (inr skip) end) with UB => False | _ => True end) by (destruct (v_sib w d); [apply IH|exact Logic.I|exact Logic.I]).
    destruct (_ && _); [exact NX|]. destruct (has_name name q d); [|exact NX]. destruct (0 <? skip); [exact Logic.I|]. destruct (accept_ok name udata srcfiles q s d) as (b & E & _). unfold accept in E. rewrite E. destruct b; exact Logic.I. }
  induction scopes as [|s scopes IH]; intros out skip; [exact Logic.I|]. cbn [getscopevar]. destruct (v_haskids w s); [|apply IH]. destruct (v_kid w s) as [d| |]; try exact Logic.I. specialize (L k s d skip). destruct (scope_loop _ _ _ _ _ _ _ _) as [[x|x]|e| |]; cbn [obind]; try exact Logic.I; [apply IH|exact L].
Qed.
Print Assumptions C76_defined.
Example C76_defined_nonvacuous : getscopevar var_view var_name var_data var_files 9 (Request [120] (Some [97; 46; 99]) 5 0) 0 [1; 2] 0 = Ok (0, Some 12).
Proof. vm_compute. reflexivity. Qed.
(* A block that has the flag for children and an empty list of them, which is valid, makes the
   call fail although the variable is in the scope around it. *)
Theorem C76_empty_refuted : exists w name udata srcfiles s1 s2 x, v_haskids w s1 = true /\ v_kid w s1 = NoMore /\ inside w s2 [x] /\ named w name [120] x /\ getscopevar w name udata srcfiles 9 (Request [120] None 0 0) 0 [s1; s2] 0 = Ok (-1, None).
Proof.
  exists {| v_tag := v_tag var_view; v_kid := fun d => if d =? 2 then Got 13 else NoMore; v_sib := v_sib var_view; v_haskids := v_haskids var_view; v_import := v_import var_view; v_origin := v_origin var_view; v_haspc := v_haspc var_view |}, var_name, var_data, var_files, 1, 2, 13.
  split; [reflexivity|]. split; [reflexivity|]. split; [exists 13; split; [reflexivity|]; apply row_last; intros d'; vm_compute; discriminate|]. split; [split; [left; reflexivity|reflexivity]|]. vm_compute. reflexivity.
Qed.
Print Assumptions C76_empty_refuted.
(* Two entries of the name in one scope: only the first is compared with the line asked for. *)
Theorem C76_second_refuted : exists w name udata srcfiles s x y, inside w s [x; y] /\ named w name [120] y /\ wanted udata srcfiles (Some [97; 46; 99]) 3 0 s y /\ getscopevar w name udata srcfiles 9 (Request [120] (Some [97; 46; 99]) 3 0) 0 [s] 0 = Ok (-2, None).
Proof.
  exists {| v_tag := v_tag var_view; v_kid := fun d => if d =? 1 then Got 12 else NoMore; v_sib := fun d => if d =? 12 then Got 13 else NoMore; v_haskids := v_haskids var_view; v_import := v_import var_view; v_origin := v_origin var_view; v_haspc := v_haspc var_view |}, var_name, var_data, var_files, 1, 12, 13.
  split; [exists 12; split; [reflexivity|]; eapply row_more; [reflexivity|]; apply row_last; intros d'; vm_compute; discriminate|]. split; [split; [left; reflexivity|reflexivity]|].
  split; [|vm_compute; reflexivity]. exists 1, [[63]; [97; 46; 99]], [97; 46; 99]. split; [reflexivity|]. split; [reflexivity|]. split; [reflexivity|]. split; [left; reflexivity|]. split; [intros _; exists 3; split; reflexivity|intro H; lia].
Qed.
Print Assumptions C76_second_refuted.
(* The file "d/a.c" is not taken for "a.c": the beginning of the name is compared, not its end
   (dwarf_getscopevar.c:67-70). *)
Theorem C76_file_refuted : exists files, files = [[63]; [100; 47] ++ [97; 46; 99]] /\ getscopevar var_view var_name var_data (fun _ => Some files) 9 (Request [120] (Some [97; 46; 99]) 0 0) 0 [1; 2] 0 = Ok (-2, None).
Proof. eexists. split; [reflexivity|]. vm_compute. reflexivity. Qed.
Print Assumptions C76_file_refuted.
(* The file "a.c/bcd" is taken for "a.c". *)
Theorem C76_other_file_refuted : exists files, files = [[63]; [97; 46; 99; 47; 98; 99; 100]] /\ getscopevar var_view var_name var_data (fun _ => Some files) 9 (Request [120] (Some [97; 46; 99]) 0 0) 0 [1; 2] 0 = Ok (0, Some 12).
Proof. eexists. split; [reflexivity|]. vm_compute. reflexivity. Qed.
Print Assumptions C76_other_file_refuted.
