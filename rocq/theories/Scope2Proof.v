(* Proofs about ScopeModel: the scopes of an address and of an entry. *)
From Verif Require Import Base ScopeModel ScopeSpec ScopeProof.
From Coq Require Import ZifyBool ZifyNat.

Lemma take_ok : forall n l, (n <= length l)%nat -> take n l = Ok (firstn n l, skipn n l).
Proof.
  induction n as [|n IH]; intros l L; [reflexivity|]. destruct l as [|d l]; cbn [length] in L; [lia|]. cbn [take firstn skipn]. rewrite IH by lia. reflexivity.
Qed.
Lemma tl_app : forall (l : list Z) x, l <> [] -> tl (l ++ [x]) = tl l ++ [x].
Proof. intros [|y l] x H; [contradiction|reflexivity]. Qed.
Lemma rev_nonempty : forall (l : list Z), l <> [] -> rev l <> [].
Proof. intros l H E. apply H. rewrite <- (rev_involutive l), E. reflexivity. Qed.

Section scopes.
Variables (w : view) (pc : Z) (k : nat).

Lemma origin_tv : forall f depth parents sc i o, length parents = S depth ->
  tv origin_match None depth parents f (Args (Some sc) i o) =
  match occurrence o f with
  | None => Ok (Args (Some sc) i o, 0)
  | Some p => Ok (Args (Some (sc ++ tl (rev p) ++ parents)) i o, Z.of_nat (length sc + length p + depth))
  end.
Proof using.
  clear. induction f as [|d b IHb n IHn]; intros depth parents sc i o L; cbn [tv occurrence]; [reflexivity|].
  unfold origin_match at 1. cbn [a_scopes a_origin a_inlined]. destruct (d =? o) eqn:D; cbn [negb obind].
  - rewrite take_ok by lia. rewrite <- L, firstn_all, skipn_all, L. cbn [obind]. cbn [rev app tl length]. replace (Z.of_nat (length sc + S depth) =? 0) with false by lia. cbn [negb]. do 2 f_equal. lia.
  - replace (negb (0 =? 0)) with false by reflexivity. cbn [obind]. rewrite (IHb (S depth) (d :: parents)) by (cbn [length]; lia).
    destruct (occurrence o b) as [p|] eqn:B; cbn [obind].
    + replace (Z.of_nat (length sc + length p + S depth) =? 0) with false by lia. cbn [negb]. cbn [rev length]. destruct (occurrence_some _ _ _ B) as (_ & r & E). rewrite tl_app by (subst p; rewrite rev_app_distr; discriminate). rewrite <- app_assoc. cbn [app]. do 2 f_equal. lia.
    + replace (negb (0 =? 0)) with false by reflexivity. apply IHn. exact L.
Qed.

Notation inl := (fun d => v_tag w d =? TAG_inlined_subroutine).
Fixpoint lasti (depth : nat) (p : list Z) (i : nat) : nat :=
  match p with [] => i | d :: p => lasti (S depth) p (if v_tag w d =? TAG_inlined_subroutine then S depth else i) end.
Lemma lasti_le : forall p depth i, (i <= depth)%nat -> (i <= lasti depth p i <= depth + length p)%nat /\ (lasti depth p i <= depth -> lasti depth p i = i)%nat.
Proof using.
  induction p as [|d p IH]; intros depth i I; cbn [lasti length]; [lia|]. specialize (IH (S depth) (if v_tag w d =? TAG_inlined_subroutine then S depth else i)). destruct (v_tag w d =? TAG_inlined_subroutine); lia.
Qed.

Lemma match_eq : forall depth d parents i o,
  pc_match w pc depth (d :: parents) (Args None i o) = match contains w pc d with
  | Some true => Ok (Args None (if v_tag w d =? TAG_inlined_subroutine then depth else i) o, false, 0)
  | Some false => Ok (Args None i o, true, 0)
  | None => Ok (Args None i o, false, -1)
  end.
Proof using.
  intros depth d parents i o. unfold pc_match, contains. cbn [a_scopes a_inlined a_origin]. destruct (v_haspc w d pc) as [| |e]; try reflexivity.
  - destruct (v_tag w d =? TAG_inlined_subroutine); reflexivity.
  - destruct (e =? 0), (e =? NO_DEBUG_RANGES), (e =? NO_DEBUG_RNGLISTS); reflexivity.
Qed.
Lemma done_tv : forall f depth parents sc i o, tv (pc_match w pc) (Some (pc_record w k)) depth parents f (Args (Some sc) i o) = Ok (Args (Some sc) i o, 0).
Proof using. induction f as [|d b IHb n IHn]; intros; cbn [tv]; [reflexivity|]. unfold pc_match at 1. cbn [a_scopes obind negb]. replace (negb (0 =? 0)) with false by reflexivity. cbn [obind negb]. replace (negb (0 =? 0)) with false by reflexivity. unfold pc_record at 1. cbn [obind]. replace (negb (0 =? 0)) with false by reflexivity. apply IHn. Qed.

Lemma rec_none : forall depth chain i o, pc_record w k depth chain false (Args None i o) =
  ' (l, rest) <- take (depth + 1 - i) chain ;;
  if Nat.eqb i 0 then match rest with [] => Ok (Args (Some l) i o, Z.of_nat (depth + 1 - i)) | _ => UB end
  else match nth_error l (depth - i) with
       | None => UB
       | Some x => if negb (v_tag w x =? TAG_inlined_subroutine) then UB
                   else match v_origin w x with None => Ok (Args (Some l) i o, -1) | Some o => Ok (Args (Some l) i o, 0) end
       end.
Proof using. reflexivity. Qed.
Lemma rec_some : forall depth chain sc i o, pc_record w k depth chain false (Args (Some sc) i o) =
  if Nat.eqb i 0 then UB else if Nat.leb i depth then Ok (Args (Some sc) i o, 0) else visit_scopes w origin_match None k depth chain [] (Args (Some sc) i o).
Proof using. reflexivity. Qed.

(* what a visit from a state without scopes gives; p: the entries that contain the address *)
Definition gives (f : forest) (p : list Z) (depth : nat) (parents : list Z) (i : nat) (o0 : Z) (r : outcome (args * Z)) : Prop :=
  let i' := lasti depth p i in
  let full := rev p ++ parents in
  let m := (depth + length p)%nat in
  let sc := firstn (m + 1 - i') full in
  match p with
  | [] => r = Ok (Args None i o0, 0)
  | _ => if Nat.eqb i' 0 then r = Ok (Args (Some full) 0 o0, Z.of_nat (length full))
         else exists x, nth_error full (m - i') = Some x /\ v_tag w x = TAG_inlined_subroutine /\
              match v_origin w x with
              | None => r = Ok (Args (Some sc) i' o0, -1)
              | Some o => r = Ok (Args (Some sc) i' o, 0) \/ exists q, path f (q ++ [o]) /\ r = Ok (Args (Some (sc ++ rev q ++ parents)) i' o, Z.of_nat (length sc + length q + S depth))
              end
  end.

Lemma gives_next : forall d b n p depth parents i o0 r, gives n p depth parents i o0 r -> gives (FNode d b n) p depth parents i o0 r.
Proof using.
  intros d b n p depth parents i o0 r. unfold gives. destruct p as [|e p]; [auto|]. destruct (Nat.eqb _ 0); [auto|]. intros (x & X & T & H). exists x. split; [exact X|]. split; [exact T|]. destruct (v_origin w x); [|exact H]. destruct H as [H|(q & Q & H)]; [left; exact H|right; exists q; split; [apply path_next; exact Q|exact H]].
Qed.

Lemma match_tv : forall f depth parents i o0, length parents = S depth -> (i <= depth)%nat -> (i = 0%nat \/ exists x, nth_error parents (depth - i) = Some x /\ v_tag w x = TAG_inlined_subroutine) ->
  reach w k f -> match containing (contains w pc) f with
  | Some p => gives f p depth parents i o0 (tv (pc_match w pc) (Some (pc_record w k)) depth parents f (Args None i o0))
  | None => exists a, tv (pc_match w pc) (Some (pc_record w k)) depth parents f (Args None i o0) = Ok (a, -1)
  end.
Proof using.
  induction f as [|d b IHb n IHn]; intros depth parents i o0 L I X RE; cbn [containing tv]; [reflexivity|]. destruct RE as (RD & RB & RN).
  rewrite match_eq. destruct (contains w pc d) as [[|]|] eqn:HD; cbn [obind].
  3:{ eexists. reflexivity. }
  2:{ replace (negb (0 =? 0)) with false by reflexivity. cbn [obind negb]. replace (negb (0 =? 0)) with false by reflexivity. unfold pc_record at 1 3. cbn [obind]. replace (negb (0 =? 0)) with false by reflexivity. 
      specialize (IHn depth parents i o0 L I X RN). destruct (containing (contains w pc) n); [apply gives_next|]; exact IHn. }
  replace (negb (0 =? 0)) with false by reflexivity. cbn [negb].
  set (i1 := if v_tag w d =? TAG_inlined_subroutine then S depth else i).
  assert (I1 : (i1 <= S depth)%nat) by (unfold i1; destruct (_ =? _); lia).
  assert (X1 : i1 = 0%nat \/ exists x, nth_error (d :: parents) (S depth - i1) = Some x /\ v_tag w x = TAG_inlined_subroutine).
  { unfold i1. destruct (v_tag w d =? TAG_inlined_subroutine) eqn:T; [right; exists d; rewrite Nat.sub_diag; split; [reflexivity|lia]|]. destruct X as [X|X]; [left; exact X|right]. replace (S depth - i)%nat with (S (depth - i)) by lia. exact X. }
  pose proof (IHb (S depth) (d :: parents) i1 o0 ltac:(cbn [length]; lia) I1 X1 RB) as H. clear IHb IHn.
  destruct (containing (contains w pc) b) as [p0|] eqn:CB; cbn [option_map]; [|destruct H as (a & ->); exists a; reflexivity].
  pose proof (lasti_le p0 (S depth) i1 I1) as LI.
  unfold gives. cbn [lasti length]. fold i1. unfold gives in H. cbn [rev]. rewrite <- app_assoc. cbn [app].
  replace (S depth + length p0)%nat with (depth + S (length p0))%nat in H by lia.
  destruct p0 as [|e p].
  - (* d is the innermost *)
    rewrite H. cbn [obind rev app length lasti] in *. replace (negb (0 =? 0)) with false by reflexivity. rewrite rec_none.
    rewrite take_ok by (cbn [length]; lia). cbn [obind]. replace (depth + 1 + 1)%nat with (S depth + 1)%nat by lia.
    destruct (Nat.eqb i1 0) eqn:Z0.
    + assert (i1 = 0%nat) by lia. rewrite H0 in *. rewrite firstn_all2 by (cbn [length]; lia). rewrite skipn_all2 by (cbn [length]; lia). cbn [obind]. replace (Z.of_nat (S depth + 1 - 0) =? 0) with false by lia. cbn [negb]. do 2 f_equal. cbn [length]. lia.
    + destruct X1 as [X1|(x & X1 & T1)]; [lia|]. exists x. replace (depth + 1)%nat with (S depth) by lia. split; [exact X1|]. split; [exact T1|].
      assert (NE : nth_error (firstn (S depth + 1 - i1) (d :: parents)) (S depth - i1) = Some x).
      { rewrite <- X1. clear -I1. set (l := d :: parents). clearbody l. assert (HH : (S depth - i1 < S depth + 1 - i1)%nat) by lia. generalize dependent (S depth + 1 - i1)%nat. generalize (S depth - i1)%nat. clear. intros m n H. revert n l H. induction m as [|m IH]; intros [|n] l H; try lia; destruct l; cbn [firstn nth_error]; auto. apply IH. lia. }
      rewrite NE. replace (v_tag w x =? TAG_inlined_subroutine) with true by lia. cbn [negb].
      destruct (v_origin w x) as [o|]; cbn [obind]; [|reflexivity]. replace (negb (0 =? 0)) with false by reflexivity. left. apply done_tv.
  - (* an entry below d is *)
    set (P := e :: p) in *. destruct (Nat.eqb (lasti (S depth) P i1) 0) eqn:Z0.
    + rewrite H. cbn [obind]. rewrite app_length. cbn [length]. match goal with |- context [Z.of_nat ?z =? 0] => replace (Z.of_nat z =? 0) with false by lia end. cbn [negb]. reflexivity.
    + destruct H as (x & X2 & T2 & H). exists x. split; [exact X2|]. split; [exact T2|]. set (i' := lasti (S depth) P i1) in *. set (sc := firstn (depth + S (length P) + 1 - i') (rev P ++ d :: parents)) in *.
      destruct (v_origin w x) as [o|]; [|rewrite H; reflexivity].
      destruct H as [H|(q & Q & H)]; rewrite H; cbn [obind].
      * replace (negb (0 =? 0)) with false by reflexivity. rewrite rec_some. rewrite Z0. destruct (Nat.leb i' (S depth)) eqn:LE; cbn [obind].
        { replace (negb (0 =? 0)) with false by reflexivity. left. apply done_tv. }
        assert (BNE : b <> FNil) by (intros ->; discriminate CB). rewrite (RD BNE) by lia. rewrite origin_tv by (cbn [length]; lia).
        destruct (occurrence o b) as [s|] eqn:OC; cbn [obind].
        -- replace (Z.of_nat (length sc + length s + S depth) =? 0) with false by lia. cbn [negb]. right. destruct (occurrence_some _ _ _ OC) as (PA & q & ->). exists (d :: q). split; [cbn [app]; constructor; exact PA|].
           rewrite rev_app_distr. cbn [rev app tl length]. rewrite <- app_assoc. cbn [app]. rewrite app_length. cbn [length]. do 2 f_equal. lia.
        -- replace (negb (0 =? 0)) with false by reflexivity. left. apply done_tv.
      * match goal with |- context [Z.of_nat ?z =? 0] => replace (Z.of_nat z =? 0) with false by lia end. cbn [negb]. right. exists (d :: q). split; [cbn [app]; constructor; exact Q|]. cbn [rev length]. rewrite <- app_assoc. cbn [app]. do 2 f_equal. lia.
Qed.

Lemma lasti_none : forall p depth i, Forall (fun d => v_tag w d <> TAG_inlined_subroutine) p -> lasti depth p i = i.
Proof using. intros p depth i F. revert depth. induction F as [|d p D F IH]; intros depth; cbn [lasti]; [reflexivity|]. replace (v_tag w d =? TAG_inlined_subroutine) with false by lia. apply IH. Qed.
Lemma lasti_at : forall outer x inner depth i, v_tag w x = TAG_inlined_subroutine -> Forall (fun d => v_tag w d <> TAG_inlined_subroutine) inner -> lasti depth (outer ++ x :: inner) i = (depth + length outer + 1)%nat.
Proof using.
  induction outer as [|d outer IH]; intros x inner depth i T F; cbn [app lasti length]; [replace (v_tag w x =? TAG_inlined_subroutine) with true by lia; rewrite lasti_none by exact F; lia|]. rewrite IH by assumption. lia.
Qed.
End scopes.

(* ------------------------------------------------------------------ whole calls *)
Section calls.
Variables (w : view) (pc cu : Z) (f : forest).
Hypothesis (TREE : unit_tree w cu f).

Lemma getscopes_gives : exists k0, forall k, (k0 <= k)%nat -> match containing (contains w pc) f with
  | Some p => exists a r, gives w f p 0 [cu] 0 0 (Ok (a, r)) /\
    getscopes w pc k cu = ' (a, r) <- (if (r =? 0) && match a_scopes a with Some _ => true | None => false end then tv origin_match None 0 [cu] f a else Ok (a, r)) ;; Ok (r, if 0 <? r then a_scopes a else None)
  | None => getscopes w pc k cu = Ok (-1, None)
  end.
Proof using TREE.
  destruct (unit_walk w cu f TREE) as (k0 & R & H). exists k0. intros k K. unfold getscopes. rewrite H by exact K.
  pose proof (match_tv w pc k f 0 [cu] 0 0 eq_refl (le_n 0) (or_introl eq_refl) (reach_mono w k0 k f K R)) as G.
  destruct (containing (contains w pc) f) as [p|]; [|destruct G as (a & ->); reflexivity].
  destruct (tv (pc_match w pc) (Some (pc_record w k)) 0 [cu] f (Args None 0 0)) as [[a r]| | |].
  - exists a, r. split; [exact G|]. cbn [obind]. destruct ((r =? 0) && _); [rewrite H by exact K|]; reflexivity.
  - exfalso. unfold gives in G. destruct p; [discriminate|]. destruct (Nat.eqb _ 0); [discriminate|]. destruct G as (x & _ & _ & G). destruct (v_origin w x); [|discriminate]. destruct G as [G|(q & _ & G)]; discriminate.
  - exfalso. unfold gives in G. destruct p; [discriminate|]. destruct (Nat.eqb _ 0); [discriminate|]. destruct G as (x & _ & _ & G). destruct (v_origin w x); [|discriminate]. destruct G as [G|(q & _ & G)]; discriminate.
  - exfalso. unfold gives in G. destruct p; [discriminate|]. destruct (Nat.eqb _ 0); [discriminate|]. destruct G as (x & _ & _ & G). destruct (v_origin w x); [|discriminate]. destruct G as [G|(q & _ & G)]; discriminate.
Qed.

Lemma scopes_error : containing (contains w pc) f = None -> exists k0, forall k, (k0 <= k)%nat -> getscopes w pc k cu = Ok (-1, None).
Proof using TREE. intros C. destruct getscopes_gives as (k0 & H). exists k0. intros k K. specialize (H k K). rewrite C in H. exact H. Qed.
Lemma scopes_none : containing (contains w pc) f = Some [] -> exists k0, forall k, (k0 <= k)%nat -> getscopes w pc k cu = Ok (0, None).
Proof using TREE.
  intros C. destruct getscopes_gives as (k0 & H). exists k0. intros k K. specialize (H k K). rewrite C in H. destruct H as (a & r & G & ->). unfold gives in G. injection G as -> ->. reflexivity.
Qed.
Lemma scopes_plain : forall p, containing (contains w pc) f = Some p -> p <> [] -> Forall (fun d => v_tag w d <> TAG_inlined_subroutine) p ->
  exists k0, forall k, (k0 <= k)%nat -> getscopes w pc k cu = Ok (Z.of_nat (length p) + 1, Some (rev p ++ [cu])).
Proof using TREE.
  intros p C NE F. destruct getscopes_gives as (k0 & H). exists k0. intros k K. specialize (H k K). rewrite C in H. destruct H as (a & r & G & ->). unfold gives in G. rewrite lasti_none in G by exact F.
  destruct p as [|d p]; [contradiction|]. set (P := d :: p) in *. cbn [Nat.eqb] in G. injection G as -> ->. change (rev p ++ [d]) with (rev P). rewrite app_length, rev_length. cbn [length a_scopes].
  change (length P) with (S (length p)). replace (Z.of_nat (S (length p) + 1) =? 0) with false by lia. cbn [andb obind]. replace (0 <? Z.of_nat (S (length p) + 1)) with true by lia. do 2 f_equal. lia.
Qed.
Lemma scopes_inlined : forall outer x inner, containing (contains w pc) f = Some (outer ++ x :: inner) -> v_tag w x = TAG_inlined_subroutine -> Forall (fun d => v_tag w d <> TAG_inlined_subroutine) inner ->
  exists k0, forall k, (k0 <= k)%nat ->
  match v_origin w x with
  | None => getscopes w pc k cu = Ok (-1, None)
  | Some o => (exists q, path f (q ++ [o]) /\ let s := rev inner ++ x :: rev q ++ [cu] in getscopes w pc k cu = Ok (Z.of_nat (length s), Some s)) \/
              ((forall q, ~ path f (q ++ [o])) /\ getscopes w pc k cu = Ok (0, None))
  end.
Proof using TREE.
  intros outer x inner C T F. destruct getscopes_gives as (k0 & H). exists k0. intros k K. specialize (H k K). rewrite C in H. destruct H as (a & r & G & E). unfold gives in G. rewrite lasti_at in G by assumption.
  assert (NE : outer ++ x :: inner <> []) by (destruct outer; discriminate). destruct (outer ++ x :: inner) as [|d p] eqn:P; [contradiction|]. rewrite <- P in G. clear NE.
  assert (FULL : rev (outer ++ x :: inner) ++ [cu] = (rev inner ++ [x]) ++ rev outer ++ [cu]) by (rewrite rev_app_distr; cbn [rev]; rewrite <- !app_assoc; reflexivity).
  rewrite FULL in G. rewrite (app_length outer (x :: inner)) in G. cbn [length] in G.
  replace (0 + (length outer + S (length inner)) + 1 - (0 + length outer + 1))%nat with (length (rev inner ++ [x])) in G by (rewrite app_length, rev_length; cbn [length]; lia).
  rewrite firstn_app, firstn_all, Nat.sub_diag in G. cbn [firstn] in G. rewrite app_nil_r in G.
  replace (0 + (length outer + S (length inner)) - (0 + length outer + 1))%nat with (length (rev inner)) in G by (rewrite rev_length; lia).
  replace (Nat.eqb (0 + length outer + 1) 0) with false in G by (symmetry; apply Nat.eqb_neq; lia).
  destruct G as (y & Y & _ & G). rewrite <- !app_assoc, nth_error_app2, Nat.sub_diag in Y by lia. cbn [app nth_error] in Y. injection Y as <-.
  destruct (v_origin w x) as [o|]; [|injection G as -> ->; rewrite E; reflexivity].
  destruct G as [G|(q & Q & G)]; injection G as -> ->.
  - cbn [a_scopes] in E. replace (0 =? 0) with true in E by reflexivity. cbn [andb] in E. rewrite origin_tv in E by reflexivity. destruct (occurrence o f) as [s|] eqn:OC; cbn [obind a_scopes] in E.
    + left. destruct (occurrence_some _ _ _ OC) as (PA & q & ->). exists q. split; [exact PA|]. rewrite E. rewrite rev_app_distr. cbn [rev app tl]. rewrite <- !app_assoc. cbn [app].
      match goal with |- context [0 <? ?z] => replace (0 <? z) with true by (rewrite ?app_length, ?rev_length; cbn [length]; lia) end. do 2 f_equal. repeat (rewrite ?app_length, ?rev_length; cbn [length]). lia.
    + right. split; [apply occurrence_none; exact OC|]. exact E.
  - left. exists q. split; [exact Q|]. cbn [a_scopes] in E. match type of E with context [?z =? 0] => replace (z =? 0) with false in E by lia end. cbn [andb obind a_scopes] in E. rewrite E. rewrite <- !app_assoc. cbn [app].
    match goal with |- context [0 <? ?z] => replace (0 <? z) with true by lia end. do 2 f_equal. repeat (rewrite ?app_length, ?rev_length; cbn [length]). lia.
Qed.
End calls.

Lemma die_tv : forall x f depth parents, length parents = depth ->
  tv (scope_visitor x) None depth parents f None = match occurrence x f with None => Ok (None, 0) | Some p => Ok (Some (rev p ++ parents), Z.of_nat (length p + depth)) end.
Proof.
  intros x. induction f as [|d b IHb n IHn]; intros depth parents L; cbn [tv occurrence]; [reflexivity|]. unfold scope_visitor at 1. destruct (d =? x) eqn:D; cbn [negb obind].
  - cbn [length]. rewrite L, Nat.eqb_refl. cbn [obind]. replace (Z.of_nat (S depth) =? 0) with false by lia. cbn [negb rev app length]. do 2 f_equal.
  - replace (negb (0 =? 0)) with false by reflexivity. cbn [obind]. rewrite (IHb (S depth) (d :: parents)) by (cbn [length]; lia). destruct (occurrence x b) as [p|]; cbn [obind].
    + replace (Z.of_nat (length p + S depth) =? 0) with false by lia. cbn [negb rev length]. rewrite <- app_assoc. cbn [app]. do 2 f_equal. lia.
    + replace (negb (0 =? 0)) with false by reflexivity. apply IHn. exact L.
Qed.
Lemma scopes_die : forall w cu f x, unit_tree w cu f -> exists k0, forall k, (k0 <= k)%nat ->
  getscopes_die w k cu x = match occurrence x f with None => Ok (0, None) | Some p => Ok (Z.of_nat (length p) + 1, Some (rev p ++ [cu])) end.
Proof.
  intros w cu f x TR. destruct (unit_walk w cu f TR) as (k0 & _ & H). exists k0. intros k K. unfold getscopes_die. rewrite H by exact K. rewrite die_tv by reflexivity.
  destruct (occurrence x f) as [p|]; cbn [obind]; [|reflexivity]. replace (0 <? Z.of_nat (length p + 1)) with true by lia. do 2 f_equal. lia.
Qed.
