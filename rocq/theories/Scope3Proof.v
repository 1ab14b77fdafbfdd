(* Proofs about ScopeModel: any answers of the other functions. *)
From Verif Require Import Base ScopeModel ScopeSpec ScopeProof Scope2Proof.
From Coq Require Import ZifyBool ZifyNat.

Lemma nth_firstn : forall (l : list Z) n i, (i < n)%nat -> nth_error (firstn n l) i = nth_error l i.
Proof. induction l as [|a l IH]; intros [|n] [|i] H; try lia; try reflexivity. cbn. apply IH. lia. Qed.

Section defined.
Variables (w : view) (pc : Z).

Definition is_some (a : args) (i : nat) : Prop := (exists sc, a_scopes a = Some sc) /\ a_inlined a = i.
Lemma origin_walk : forall k depth parents imports c a i, is_some a i -> length parents = S depth ->
  match walk w origin_match None k depth parents imports c a with Ok (a', _) => is_some a' i | UB => False | _ => True end.
Proof using.
  induction k as [|k IH]; intros depth parents imports c a i S L; [exact Logic.I|]. cbn [walk].
  assert (NX : forall a, is_some a i -> match match v_sib w c with Got c0 => walk w origin_match None k depth parents imports c0 a | NoMore => Ok (a, 0) | Bad => Ok (a, -1) end with Ok (a', _) => is_some a' i | UB => False | _ => True end).
  { intros b B. destruct (v_sib w c); [apply IH; assumption|exact B|exact B]. }
  destruct (v_tag w c =? TAG_imported_unit).
  - destruct (v_import w c) as [u|]; [|apply NX, S]. destruct (v_kid w u) as [c1| |]; [|apply NX, S|apply NX, S]. destruct (existsb _ _); [exact S|].
    specialize (IH depth parents (c :: imports) c1 a i S L). destruct (walk w origin_match None k depth parents (c :: imports) c1 a) as [[a1 r]| | |]; cbn [obind]; try contradiction; try exact Logic.I. destruct (negb (r =? 0)); [exact IH|apply NX, IH].
  - assert (PR : match origin_match (Datatypes.S depth) (c :: parents) a with Ok (a', _, _) => is_some a' i | UB => False | _ => True end).
    { destruct S as ((sc & E) & I). unfold origin_match. rewrite E. destruct (negb (c =? a_origin a)); [split; [exists sc; exact E|exact I]|]. rewrite take_ok by lia. rewrite <- L, firstn_all, skipn_all. cbn [obind]. split; [eexists; reflexivity|exact I]. }
    destruct (origin_match (Datatypes.S depth) (c :: parents) a) as [[[a1 prune] r]| | |]; cbn [obind]; try contradiction; try exact Logic.I. destruct (negb (r =? 0)); [exact PR|].
    assert (BL : match (if negb prune && may_have_scopes (v_tag w c) && v_haskids w c then match v_kid w c with Got c1 => walk w origin_match None k (Datatypes.S depth) (c :: parents) imports c1 a1 | NoMore => Ok (a1, 0) | Bad => Ok (a1, -1) end else Ok (a1, 0)) with Ok (a', _) => is_some a' i | UB => False | _ => True end).
    { destruct (negb prune && _ && _); [|exact PR]. destruct (v_kid w c); [apply IH; [exact PR|cbn [length]; lia]|exact PR|exact PR]. }
    destruct (if negb prune && _ && _ then _ else _) as [[a2 r2]| | |]; cbn [obind]; try contradiction; try exact Logic.I. destruct (negb (r2 =? 0)); [exact BL|]. replace (negb (0 =? 0)) with false by reflexivity. apply NX, BL.
Qed.
Lemma origin_visit : forall k depth chain a i, is_some a i -> length chain = S depth ->
  match visit_scopes w origin_match None k depth chain [] a with Ok (a', _) => is_some a' i | UB => False | _ => True end.
Proof using.
  intros k depth chain a i S L. unfold visit_scopes. destruct chain as [|d chain]; [discriminate|]. destruct (v_kid w d); [apply origin_walk; [exact S|exact L]|exact S|exact S].
Qed.

(* once the scopes are noted nothing changes *)
Lemma done_walk : forall k0 k depth parents imports c a sc, a_scopes a = Some sc ->
  match walk w (pc_match w pc) (Some (pc_record w k0)) k depth parents imports c a with Ok (a', _) => a' = a | UB => False | _ => True end.
Proof using.
  intros k0. induction k as [|k IH]; intros depth parents imports c a sc S; [exact Logic.I|]. cbn [walk].
  assert (NX : match match v_sib w c with Got c0 => walk w (pc_match w pc) (Some (pc_record w k0)) k depth parents imports c0 a | NoMore => Ok (a, 0) | Bad => Ok (a, -1) end with Ok (a', _) => a' = a | UB => False | _ => True end).
  { destruct (v_sib w c); [eapply IH; eassumption|reflexivity|reflexivity]. }
  destruct (v_tag w c =? TAG_imported_unit).
  - destruct (v_import w c) as [u|]; [|apply NX]. destruct (v_kid w u) as [c1| |]; [|apply NX|apply NX]. destruct (existsb _ _); [reflexivity|].
    specialize (IH depth parents (c :: imports) c1 a sc S). destruct (walk w _ _ k depth parents (c :: imports) c1 a) as [[a1 r]| | |]; cbn [obind]; try contradiction; try exact Logic.I. subst a1. destruct (negb (r =? 0)); [reflexivity|apply NX].
  - unfold pc_match at 1. rewrite S. cbn [obind negb andb Z.eqb]. unfold pc_record at 1. cbn [obind negb Z.eqb]. apply NX.
Qed.

(* the inlined entry noted is on the chain *)
Definition on_chain (i depth : nat) (parents : list Z) : Prop := (i <= depth)%nat /\ (i = 0%nat \/ exists x, nth_error parents (depth - i) = Some x /\ v_tag w x = TAG_inlined_subroutine).
(* after a visit that goes on: as before, or recorded with an inlined entry *)
Definition fine (i : nat) (r : outcome (args * Z)) : Prop :=
  match r with
  | Ok (a, r) => r = 0 -> (a_scopes a = None /\ a_inlined a = i) \/ exists j, is_some a j /\ j <> 0%nat
  | UB => False
  | _ => True
  end.

Lemma match_walk : forall k0 k depth parents imports c i o, on_chain i depth parents -> length parents = S depth ->
  fine i (walk w (pc_match w pc) (Some (pc_record w k0)) k depth parents imports c (Args None i o)).
Proof using.
  intros k0. induction k as [|k IH]; intros depth parents imports c i o OC L; [exact Logic.I|]. cbn [walk].
  assert (NX : forall b, fine i (Ok (b, 0)) -> fine i (match v_sib w c with Got c0 => walk w (pc_match w pc) (Some (pc_record w k0)) k depth parents imports c0 b | NoMore => Ok (b, 0) | Bad => Ok (b, -1) end)).
  { intros [sc i2 o2] B. destruct (v_sib w c) as [c0| |]; [|exact B|intro; discriminate]. destruct (B eq_refl) as [(E2 & I2)|(j & ((sc2 & E2) & I2) & J)]; cbn in E2, I2.
    - subst. apply IH; assumption.
    - pose proof (done_walk k0 k depth parents imports c0 (Args sc i2 o2) sc2 E2) as D. unfold fine. destruct (walk w _ _ k depth parents imports c0 (Args sc i2 o2)) as [[a' r]| | |]; try contradiction; try exact Logic.I. subst a'. intros _. right. exists j. split; [split; [exists sc2; exact E2|exact I2]|exact J]. }
  assert (KEEP : fine i (Ok (Args None i o, 0))) by (intros _; left; split; reflexivity).
  destruct (v_tag w c =? TAG_imported_unit).
  - destruct (v_import w c) as [u|]; [|apply NX, KEEP]. destruct (v_kid w u) as [c1| |]; [|apply NX, KEEP|apply NX, KEEP]. destruct (existsb _ _); [intro; discriminate|].
    specialize (IH depth parents (c :: imports) c1 i o OC L). destruct (walk w _ _ k depth parents (c :: imports) c1 _) as [[a1 r]| | |]; cbn [obind]; try contradiction; try exact Logic.I.
    destruct (r =? 0) eqn:R; cbn [negb]; [|intro; lia]. apply NX. intros _. apply IH. lia.
  - assert (SKIP : fine i (' (a, r) <- (if negb true && may_have_scopes (v_tag w c) && v_haskids w c then match v_kid w c with Got c1 => walk w (pc_match w pc) (Some (pc_record w k0)) k (S depth) (c :: parents) imports c1 (Args None i o) | NoMore => Ok (Args None i o, 0) | Bad => Ok (Args None i o, -1) end else Ok (Args None i o, 0)) ;; if negb (r =? 0) then Ok (a, r) else ' (a, r) <- pc_record w k0 (S depth) (c :: parents) true a ;; if negb (r =? 0) then Ok (a, r) else match v_sib w c with Got c0 => walk w (pc_match w pc) (Some (pc_record w k0)) k depth parents imports c0 a | NoMore => Ok (a, 0) | Bad => Ok (a, -1) end)).
    { cbn [negb andb obind Z.eqb]. unfold pc_record at 1. cbn [obind negb Z.eqb]. apply NX, KEEP. }
    unfold pc_match at 1. cbn [a_scopes a_origin]. destruct (v_haspc w c pc) as [| |e].
    2:{ cbn [obind Z.eqb negb] in SKIP |- *. exact SKIP. }
    2:{ destruct (negb (e =? 0) && _ && _); [cbn [obind]; cbn; intro; discriminate|cbn [obind Z.eqb negb] in SKIP |- *; exact SKIP]. }
    cbn [obind Z.eqb negb].
    set (j := if v_tag w c =? TAG_inlined_subroutine then S depth else i).
    replace (if v_tag w c =? TAG_inlined_subroutine then _ else _) with (Args None j o) by (unfold j; destruct (v_tag w c =? _); reflexivity).
    assert (OJ : on_chain j (S depth) (c :: parents)).
    { unfold j. destruct OC as (OC1 & OC2). destruct (v_tag w c =? TAG_inlined_subroutine) eqn:T; split; try lia.
      - right. exists c. rewrite Nat.sub_diag. split; [reflexivity|lia].
      - destruct OC2 as [Z0|(x & N & X)]; [left; exact Z0|]. right. exists x. replace (S depth - i)%nat with (S (depth - i)) by lia. auto. }
    assert (LJ : length (c :: parents) = S (S depth)) by (cbn [length]; lia).
    assert (BL : fine j (if negb false && may_have_scopes (v_tag w c) && v_haskids w c then match v_kid w c with Got c1 => walk w (pc_match w pc) (Some (pc_record w k0)) k (S depth) (c :: parents) imports c1 (Args None j o) | NoMore => Ok (Args None j o, 0) | Bad => Ok (Args None j o, -1) end else Ok (Args None j o, 0))).
    { assert (KJ : fine j (Ok (Args None j o, 0))) by (intros _; left; split; reflexivity). destruct (negb false && _ && _); [|exact KJ]. destruct (v_kid w c); [apply IH; assumption|exact KJ|intro; discriminate]. }
    cbn [negb andb] in BL |- *. clearbody j. clear SKIP.
    destruct (if may_have_scopes (v_tag w c) && _ then _ else _) as [[[sc2 i2 o2] r2]| | |]; cbn [obind]; try contradiction; try exact Logic.I.
    destruct (r2 =? 0) eqn:R2; cbn [negb]; [|intro; lia]. specialize (BL ltac:(lia)). cbn [a_scopes a_inlined] in BL.
    assert (PR : match pc_record w k0 (S depth) (c :: parents) false (Args sc2 i2 o2) with Ok (a, r) => r = 0 -> exists j, is_some a j /\ j <> 0%nat | UB => False | _ => True end).
    { destruct BL as [(E2 & I2)|(j2 & ((s2 & E2) & I2) & J)].
      - cbn in E2, I2. subst sc2 i2. unfold pc_record. cbn [a_scopes a_inlined a_origin]. destruct OJ as (O1 & O2). rewrite take_ok by (rewrite LJ; lia). cbn [obind].
        destruct (Nat.eqb j 0) eqn:J0.
        + apply Nat.eqb_eq in J0. subst j. replace (S depth + 1 - 0)%nat with (length (c :: parents)) by (rewrite LJ; lia). rewrite skipn_all. lia.
        + destruct O2 as [O2|(x & N & X)]; [lia|]. rewrite nth_firstn by lia. rewrite N, X, Z.eqb_refl. cbn [negb]. destruct (v_origin w x); [|lia]. intros _. exists j. split; [split; [eexists; reflexivity|reflexivity]|lia].
      - cbn in E2, I2. subst sc2 i2. unfold pc_record. cbn [a_scopes a_inlined a_origin]. replace (Nat.eqb j2 0) with false by lia.
        destruct (Nat.leb j2 (S depth)); [intros _; exists j2; split; [split; [eexists; reflexivity|reflexivity]|exact J]|].
        pose proof (origin_visit k0 (S depth) (c :: parents) (Args (Some s2) j2 o2) j2 ltac:(split; [eexists; reflexivity|reflexivity]) LJ) as V.
        destruct (visit_scopes w origin_match None k0 (S depth) (c :: parents) [] _) as [[a r]| | |]; try contradiction; try exact Logic.I. intros _. exists j2. split; [exact V|exact J]. }
    destruct (pc_record w k0 (S depth) (c :: parents) false (Args sc2 i2 o2)) as [[a r]| | |]; cbn [obind]; try contradiction; try exact Logic.I.
    destruct (r =? 0) eqn:R; cbn [negb]; [|intro; lia]. apply NX. intros _. right. apply PR. lia.
Qed.

Lemma getscopes_defined : forall k cu, getscopes w pc k cu <> UB.
Proof using.
  intros k cu. unfold getscopes. unfold visit_scopes at 1. destruct (v_kid w cu) as [c| |] eqn:K; [|cbn; discriminate|cbn; discriminate].
  pose proof (match_walk k k 0 [cu] [] c 0 0 ltac:(split; [lia|left; reflexivity]) eq_refl) as M.
  destruct (walk w _ _ k 0 [cu] [] c (Args None 0 0)) as [[a r]| | |]; cbn [obind]; try contradiction; try discriminate.
  destruct (a_scopes a) as [sc|] eqn:S; [|rewrite andb_false_r; cbn; discriminate]. rewrite andb_true_r. destruct (r =? 0); [|cbn; discriminate].
  pose proof (origin_visit k 0 [cu] a (a_inlined a) ltac:(split; [exists sc; exact S|reflexivity]) eq_refl) as V.
  destruct (visit_scopes w origin_match None k 0 [cu] [] a) as [[a' r']| | |]; cbn [obind]; try contradiction; discriminate.
Qed.
End defined.

(* Walks end if entries follow each other at growing addresses. *)
Definition forward (w : view) (n : Z) : Prop :=
  (forall d c, v_kid w d = Got c -> d < c) /\ (forall d c, v_sib w d = Got c -> d < c) /\
  (forall d c, v_kid w d = Got c \/ v_sib w d = Got c -> 0 <= c < n).

Lemma few_imports : forall n l, NoDup l -> Forall (fun d => 0 <= d < n) l -> Z.of_nat (length l) <= Z.max 0 n.
Proof.
  intros n l ND F. pose proof (NoDup_incl_length (l := map Z.to_nat l) (l' := seq 0 (Z.to_nat n))) as H.
  rewrite map_length, seq_length in H. enough (length l <= Z.to_nat n)%nat by lia. apply H.
  - clear H. induction l as [|a l IH]; [constructor|]. inversion ND; subst. apply Forall_cons_iff in F as (Fa & F). cbn [map]. constructor; [|apply IH; assumption]. rewrite in_map_iff. intros (b & E & I). rewrite Forall_forall in F. specialize (F b I). assert (b = a) by lia. subst. contradiction.
  - intros x I. apply in_map_iff in I as (b & <- & I). rewrite Forall_forall in F. specialize (F b I). apply in_seq. lia.
Qed.

Section ends.
Context {A : Type} (w : view) (pre : nat -> list Z -> A -> outcome (A * bool * Z)) (post : option (nat -> list Z -> bool -> A -> outcome (A * Z))) (n : Z).
Hypothesis FW : forward w n.
Hypothesis PRE : forall depth chain a, pre depth chain a <> Fuel.
Hypothesis POST : forall f, post = Some f -> forall depth chain prune a, f depth chain prune a <> Fuel.

Lemma walk_ends : forall k depth parents imports c a, NoDup imports -> Forall (fun d => 0 <= d < n) imports -> 0 <= c < n ->
  (n - Z.of_nat (length imports)) * (n + 1) + (n - c) < Z.of_nat k -> walk w pre post k depth parents imports c a <> Fuel.
Proof using FW PRE POST.
  destruct FW as (FK & FS & FB).
  induction k as [|k IH]; intros depth parents imports c a ND FI C M.
  { pose proof (few_imports _ _ ND FI). nia. }
  cbn [walk].
  assert (NX : forall a, match v_sib w c with Got c0 => walk w pre post k depth parents imports c0 a | NoMore => Ok (a, 0) | Bad => Ok (a, -1) end <> Fuel).
  { intro b. destruct (v_sib w c) as [c0| |] eqn:S; try discriminate. pose proof (FS _ _ S). apply IH; [assumption|assumption|apply (FB c); auto|lia]. }
  destruct (v_tag w c =? TAG_imported_unit).
  - destruct (v_import w c) as [u|]; [|apply NX]. destruct (v_kid w u) as [c1| |] eqn:K; [|apply NX|apply NX]. destruct (existsb (Z.eqb c) imports) eqn:X; [discriminate|].
    assert (NI : ~ In c imports) by (intro I; apply existsb_in in I; congruence).
    assert (ND' : NoDup (c :: imports)) by (constructor; assumption).
    assert (FI' : Forall (fun d => 0 <= d < n) (c :: imports)) by (constructor; assumption).
    assert (C1 : 0 <= c1 < n) by (apply (FB u); auto).
    specialize (IH depth parents (c :: imports) c1 a ND' FI' C1 ltac:(cbn [length]; pose proof (few_imports _ _ ND FI); nia)).
    destruct (walk w pre post k depth parents (c :: imports) c1 a) as [[a1 r]| | |]; cbn [obind]; try discriminate; [|contradiction]. destruct (negb (r =? 0)); [discriminate|apply NX].
  - pose proof (PRE (S depth) (c :: parents) a) as P. destruct (pre (S depth) (c :: parents) a) as [[[a1 prune] r]| | |]; cbn [obind]; try discriminate; [|contradiction]. destruct (negb (r =? 0)); [discriminate|].
    assert (BL : (if negb prune && may_have_scopes (v_tag w c) && v_haskids w c then match v_kid w c with Got c1 => walk w pre post k (S depth) (c :: parents) imports c1 a1 | NoMore => Ok (a1, 0) | Bad => Ok (a1, -1) end else Ok (a1, 0)) <> Fuel).
    { destruct (negb prune && _ && _); [|discriminate]. destruct (v_kid w c) as [c1| |] eqn:K; try discriminate. pose proof (FK _ _ K). apply IH; [assumption|assumption|apply (FB c); auto|lia]. }
    destruct (if negb prune && _ && _ then _ else _) as [[a2 r2]| | |]; cbn [obind]; try discriminate; [|contradiction]. destruct (negb (r2 =? 0)); [discriminate|].
    destruct post as [f|] eqn:PF.
    + pose proof (POST f eq_refl (S depth) (c :: parents) prune a2) as Q. destruct (f (S depth) (c :: parents) prune a2) as [[a3 r3]| | |]; cbn [obind]; try discriminate; [|contradiction]. destruct (negb (r3 =? 0)); [discriminate|apply NX].
    + cbn [obind]. replace (negb (0 =? 0)) with false by reflexivity. apply NX.
Qed.
Lemma visit_ends : forall k depth chain a, (n + 1) * (n + 1) < Z.of_nat k -> visit_scopes w pre post k depth chain [] a <> Fuel.
Proof using FW PRE POST.
  intros k depth chain a M. unfold visit_scopes. destruct chain as [|d chain]; [discriminate|]. destruct (v_kid w d) as [c| |] eqn:K; try discriminate.
  destruct FW as (FK & FS & FB). assert (0 <= c < n) by (apply (FB d); auto). apply walk_ends; [constructor|constructor|assumption|cbn [length]; nia].
Qed.
End ends.

Lemma take_total : forall m l, take m l <> Fuel.
Proof. induction m as [|m IH]; intros [|d l]; cbn; try discriminate. specialize (IH l). destruct (take m l) as [[? ?]| | |]; cbn; congruence. Qed.
Lemma origin_match_total : forall depth chain a, origin_match depth chain a <> Fuel.
Proof.
  intros depth [|d l] a; [discriminate|]. unfold origin_match. destruct (a_scopes a); [|discriminate]. destruct (negb _); [discriminate|].
  pose proof (take_total depth l). destruct (take depth l) as [[? rest]| | |]; cbn; try congruence. destruct rest; discriminate.
Qed.
Lemma getscopes_ends : forall w pc n cu k, forward w n -> (n + 1) * (n + 1) < Z.of_nat k -> getscopes w pc k cu <> Fuel.
Proof.
  intros w pc n cu k FW M. unfold getscopes.
  assert (OV : forall depth chain a, visit_scopes w origin_match None k depth chain [] a <> Fuel).
  { intros. apply (visit_ends w origin_match None n FW); [apply origin_match_total|discriminate|exact M]. }
  assert (V : visit_scopes w (pc_match w pc) (Some (pc_record w k)) k 0 [cu] [] (Args None 0 0) <> Fuel).
  { apply (visit_ends w _ _ n FW); [| |exact M].
    - intros depth chain a. unfold pc_match. destruct (a_scopes a); [discriminate|]. destruct chain; [discriminate|]. destruct (v_haspc _ _ _); try discriminate. destruct (_ && _ && _); discriminate.
    - intros f [= <-] depth chain prune a. unfold pc_record. destruct prune; [discriminate|]. destruct (a_scopes a).
      + destruct (Nat.eqb _ _); [discriminate|]. destruct (Nat.leb _ _); [discriminate|apply OV].
      + pose proof (take_total (depth + 1 - a_inlined a) chain). destruct (take (depth + 1 - a_inlined a) chain) as [[l rest]| | |]; cbn [obind]; try congruence. destruct (Nat.eqb _ _); [destruct rest; discriminate|]. destruct (nth_error _ _); [|discriminate]. destruct (negb _); [discriminate|]. destruct (v_origin _ _); discriminate. }
  destruct (visit_scopes w (pc_match w pc) _ k 0 [cu] [] _) as [[a r]| | |]; cbn [obind]; try discriminate; [|contradiction].
  specialize (OV 0%nat [cu] a). destruct (_ && _); [|cbn; discriminate]. destruct (visit_scopes w origin_match None k 0 [cu] [] a) as [[a' r']| | |]; cbn [obind]; congruence.
Qed.

(* getscopes_die *)
Lemma die_walk : forall w x k depth parents imports c, length parents = depth ->
  walk w (scope_visitor x) None k depth parents imports c None <> UB.
Proof.
  intros w x k. enough (H : forall depth parents imports c, length parents = depth -> match walk w (scope_visitor x) None k depth parents imports c None with Ok (a, r) => r = 0 -> a = None | UB => False | _ => True end).
  { intros depth parents imports c L. specialize (H depth parents imports c L). destruct (walk _ _ _ _ _ _ _ _ _); congruence. }
  induction k as [|k IH]; intros depth parents imports c L; [exact Logic.I|]. cbn [walk].
  assert (NX : forall a, a = None -> match match v_sib w c with Got c0 => walk w (scope_visitor x) None k depth parents imports c0 a | NoMore => Ok (a, 0) | Bad => Ok (a, -1) end with Ok (a, r) => r = 0 -> a = None | UB => False | _ => True end).
  { intros a ->. destruct (v_sib w c); [apply IH; assumption|reflexivity|discriminate]. }
  destruct (v_tag w c =? TAG_imported_unit).
  - destruct (v_import w c) as [u|]; [|apply NX; reflexivity]. destruct (v_kid w u) as [c1| |]; [|apply NX; reflexivity|apply NX; reflexivity]. destruct (existsb _ _); [discriminate|].
    specialize (IH depth parents (c :: imports) c1 L). destruct (walk w _ None k depth parents (c :: imports) c1 None) as [[a1 r]| | |]; cbn [obind]; try contradiction; try exact Logic.I.
    destruct (r =? 0) eqn:R; cbn [negb]; [apply NX, IH; lia|lia].
  - unfold scope_visitor at 1. destruct (negb (c =? x)).
    + cbn [obind Z.eqb negb andb].
      assert (BL : match (if may_have_scopes (v_tag w c) && v_haskids w c then match v_kid w c with Got c1 => walk w (scope_visitor x) None k (S depth) (c :: parents) imports c1 None | NoMore => Ok (None, 0) | Bad => Ok (None, -1) end else Ok (None, 0)) with Ok (a, r) => r = 0 -> a = None | UB => False | _ => True end).
      { destruct (_ && _); [|reflexivity]. destruct (v_kid w c); [apply IH; cbn [length]; lia|reflexivity|discriminate]. }
      destruct (if may_have_scopes (v_tag w c) && _ then _ else _) as [[a2 r2]| | |]; cbn [obind]; try contradiction; try exact Logic.I. destruct (r2 =? 0) eqn:R; cbn [negb]; [|lia]. replace (0 =? 0) with true by reflexivity. cbn [negb]. apply NX, BL. lia.
    + cbn [length]. rewrite L, Nat.eqb_refl. cbn [obind]. destruct (Z.of_nat (S depth) =? 0) eqn:Z0; [lia|]. cbn [negb]. lia.
Qed.
Lemma getscopes_die_safe : forall w k cu x, getscopes_die w k cu x <> UB.
Proof.
  intros w k cu x. unfold getscopes_die, visit_scopes. destruct (v_kid w cu) as [c| |]; [|cbn; discriminate|cbn; discriminate].
  pose proof (die_walk w x k 1 [cu] [] c eq_refl). destruct (walk _ _ _ _ _ _ _ _ _) as [[a r]| | |]; cbn [obind]; congruence.
Qed.
Lemma getscopes_die_ends : forall w n cu x k, forward w n -> (n + 1) * (n + 1) < Z.of_nat k -> getscopes_die w k cu x <> Fuel.
Proof.
  intros w n cu x k FW M. unfold getscopes_die.
  assert (V : visit_scopes w (scope_visitor x) None k 1 [cu] [] None <> Fuel).
  { apply (visit_ends w _ _ n FW); [|discriminate|exact M]. intros depth [|d l] a; [discriminate|]. unfold scope_visitor. destruct (negb _); [discriminate|]. destruct (Nat.eqb _ _); discriminate. }
  destruct (visit_scopes _ _ _ _ _ _ _ _) as [[a r]| | |]; cbn [obind]; congruence.
Qed.
