(* Proofs about SrcModel. *)
From Verif Require Import Base DwModel LineModel SrcModel SrcSpec.
From Verif Require SegProof.
From Coq Require Import ZifyBool ZifyNat.

Lemma same_ok : forall a b, same a b = true <-> a = b.
Proof.
  induction a as [|x a IH]; intros [|y b]; cbn [same]; split; intro H; try reflexivity; try discriminate.
  - apply andb_true_iff in H as (H1 & H2). apply Z.eqb_eq in H1. apply IH in H2. congruence.
  - injection H as -> ->. rewrite Z.eqb_refl. apply IH. reflexivity.
Qed.
Lemma slash : forall s, existsb (Z.eqb 47) s = true <-> In 47 s.
Proof. intro s. rewrite existsb_exists. split; [intros (x & I & E); apply Z.eqb_eq in E; subst; exact I|intro I; exists 47; split; [exact I|reflexivity]]. Qed.
Lemma noslash : forall s, existsb (Z.eqb 47) s = false <-> ~ In 47 s.
Proof. intro s. rewrite <- slash. destruct (existsb _ s); split; intro H; try reflexivity; try discriminate. exfalso. apply H. reflexivity. Qed.
Lemma basename_ok : forall s, last_part s (basename s).
Proof.
  induction s as [|c r IH]; cbn [basename]; [split; [intros []|left; reflexivity]|]. destruct (existsb (Z.eqb 47) r) eqn:S1.
  - destruct IH as (N & [E|(d & E)]); split; try exact N.
    + exfalso. apply slash in S1. rewrite E in S1. exact (N S1).
    + right. exists (c :: d). rewrite E at 1. reflexivity.
  - apply noslash in S1. destruct (c =? 47) eqn:C.
    + split; [exact S1|]. right. exists []. cbn. f_equal. lia.
    + split; [|left; reflexivity]. intros [I|I]; [lia|exact (S1 I)].
Qed.
Lemma split_last : forall (d1 d2 b1 b2 : bytes), ~ In 47 b1 -> ~ In 47 b2 -> d1 ++ [47] ++ b1 = d2 ++ [47] ++ b2 -> b1 = b2.
Proof.
  induction d1 as [|x d1 IH]; intros [|y d2] b1 b2 N1 N2 E; cbn [app] in E; try (injection E as E0 E).
  - injection E as E. exact E.
  - exfalso. apply N1. rewrite E. apply in_or_app. right. left. reflexivity.
  - exfalso. apply N2. rewrite <- E. apply in_or_app. right. left. reflexivity.
  - exact (IH d2 b1 b2 N1 N2 E).
Qed.
Lemma last_part_one : forall s a b, last_part s a -> last_part s b -> a = b.
Proof.
  intros s a b (N1 & [E1|(d1 & E1)]) (N2 & [E2|(d2 & E2)]).
  - congruence.
  - exfalso. apply N1. rewrite <- E1, E2. apply in_or_app. right. left. reflexivity.
  - exfalso. apply N2. rewrite <- E2, E1. apply in_or_app. right. left. reflexivity.
  - rewrite E1 in E2. exact (split_last _ _ _ _ N1 N2 E2).
Qed.
Lemma name_ok : forall fname name, name_is fname name = true <-> named fname name.
Proof.
  intros fname name. unfold name_is, named. destruct (existsb (Z.eqb 47) fname); rewrite same_ok; [reflexivity|]. split; [intros <-; apply basename_ok|intro L; exact (last_part_one _ _ _ (basename_ok name) L)].
Qed.

Section fold.
Variables (lineno column max : Z).
Hypothesis L0 : lineno <> 0.

Lemma cannot_ok : forall l, cannot lineno column l = false <-> behind lineno column l.
Proof using L0. intro l. unfold cannot, behind. replace (lineno =? 0) with false by lia. cbn [negb andb]. destruct (column =? 0) eqn:C; cbn [negb andb]; [rewrite orb_false_r|]; split; intro H; lia. Qed.
Definition ex (l : line) : bool := (n_line l =? lineno) && ((column =? 0) || (n_col l =? column)).
Lemma ex_ok : forall l, ex l = true <-> exact lineno column l.
Proof using. intro l. unfold ex, exact. rewrite andb_true_iff, orb_true_iff, !Z.eqb_eq. reflexivity. Qed.
Definition up (a b : line) : bool := (n_line a <? n_line b) || ((n_line a =? n_line b) && (n_col a <=? n_col b)).
Lemma up_ok : forall a b, up a b = true <-> upto a b.
Proof using. intros. unfold up, upto. lia. Qed.
Lemma better_up : forall o l, better o l = up l o.
Proof using. intros. unfold better, up. lia. Qed.
Lemma differs_ex : forall o l, differs lineno column o l = negb (ex o && ex l).
Proof using. intros. unfold differs, ex. destruct (column =? 0) eqn:C; cbn [negb andb orb]; lia. Qed.
Lemma no_ex : forall c, ~ Exists (exact lineno column) c <-> filter ex c = [].
Proof using.
  intro c. split.
  - intro N. destruct (filter ex c) as [|y r] eqn:F; [reflexivity|]. exfalso. apply N. apply Exists_exists. exists y. assert (I : In y (filter ex c)) by (rewrite F; left; reflexivity). apply filter_In in I as (I & E). split; [exact I|apply ex_ok; exact E].
  - intros F E. apply Exists_exists in E as (y & I & X). assert (J : In y (filter ex c)) by (apply filter_In; split; [exact I|apply ex_ok; exact X]). rewrite F in J. destruct J.
Qed.
(* best, with the boolean test *)
Definition bestb (c r : list line) : Prop :=
  match filter ex c with
  | [] => match c with [] => r = [] | _ => exists l1 b l2, c = l1 ++ b :: l2 /\ r = [b] /\ Forall (fun l => up b l = true) l1 /\ Forall (fun l => up l b = false) l2 end
  | e => r = e
  end.
Lemma Forall_iff : forall A (P Q : A -> Prop) l, (forall x, P x <-> Q x) -> Forall P l -> Forall Q l.
Proof using. intros A P Q l H F. eapply Forall_impl; [|exact F]. intros x X. apply H. exact X. Qed.
Lemma bestb_ok : forall c r, bestb c r -> best lineno column c r.
Proof using.
  intros c r B. unfold bestb in B. split; [|split].
  - intro E. exists ex. split; [exact ex_ok|]. destruct (filter ex c) as [|y f] eqn:F; [|exact B]. exfalso. apply no_ex in F. exact (F E).
  - intros N NE. apply no_ex in N. rewrite N in B. destruct c as [|y c]; [contradiction|]. destruct B as (l1 & b & l2 & E & R & F1 & F2). exists l1, b, l2. split; [exact E|]. split; [exact R|]. split; [exact (Forall_iff _ _ _ _ (up_ok b) F1)|]. eapply Forall_iff; [|exact F2]. intro x. cbn beta. rewrite <- up_ok. destruct (up x b); split; congruence.
  - intro E. subst c. cbn in B. exact B.
Qed.
Lemma bestb_in : forall c r x, bestb c r -> In x r -> In x c.
Proof using.
  intros c r x B I. unfold bestb in B. destruct (filter ex c) as [|y f] eqn:F.
  - destruct c as [|y c]; [subst r; destruct I|]. destruct B as (l1 & b & l2 & -> & -> & _). destruct I as [<-|[]]. apply in_or_app. right. left. reflexivity.
  - subst r. rewrite <- F in I. apply filter_In in I. apply I.
Qed.
Lemma bestb_nil : forall c, bestb c [] -> c = [].
Proof using. intros c B. unfold bestb in B. destruct (filter ex c) as [|y f]; [|discriminate]. destruct c as [|y c]; [reflexivity|]. destruct B as (l1 & b & l2 & _ & R & _). discriminate. Qed.
Lemma filter_snoc : forall c x, filter ex (c ++ [x]) = filter ex c ++ (if ex x then [x] else []).
Proof using. intros c x. rewrite filter_app. reflexivity. Qed.
Lemma snoc_cons : forall A (c : list A) x, exists y t, c ++ [x] = y :: t.
Proof using. intros A [|y c] x; [exists x, []|exists y, (c ++ [x])]; reflexivity. Qed.
(* one more candidate *)
Lemma best_step : forall c r x, bestb c r -> Forall (behind lineno column) (c ++ [x]) ->
  bestb (c ++ [x]) (match r with [] => [x] | o :: _ => if ex o && ex x then r ++ [x] else if up x o then [x] else r end).
Proof using.
  intros c r x B F. apply Forall_app in F as (FC & FX). apply Forall_cons_iff in FX as (FX & _). unfold bestb in B |- *. rewrite filter_snoc. destruct (filter ex c) as [|y f] eqn:FE.
  - cbn [app]. destruct c as [|y c].
    + subst r. destruct (ex x) eqn:X; cbn [app]; [reflexivity|]. exists [], x, []. split; [reflexivity|]. split; [reflexivity|]. split; constructor.
    + destruct B as (l1 & b & l2 & E & -> & F1 & F2). assert (NB : ex b = false).
      { destruct (ex b) eqn:X; [|reflexivity]. assert (J : In b (filter ex (y :: c))) by (apply filter_In; split; [rewrite E; apply in_or_app; right; left; reflexivity|exact X]). rewrite FE in J. destruct J. }
      rewrite NB. cbn [andb]. destruct (ex x) eqn:X.
      * assert (U : up x b = true).
        { apply up_ok. apply ex_ok in X. assert (BB : behind lineno column b) by (rewrite Forall_forall in FC; apply FC; rewrite E; apply in_or_app; right; left; reflexivity). assert (~ exact lineno column b) by (rewrite <- ex_ok; congruence). unfold upto, exact, behind in *. lia. }
        rewrite U. reflexivity.
      * destruct (snoc_cons _ (y :: c) x) as (z & t & Z). rewrite Z, <- Z. destruct (up x b) eqn:U.
        { exists (y :: c), x, []. split; [reflexivity|]. split; [reflexivity|]. split; [|constructor]. rewrite E. apply up_ok in U. apply Forall_app. split; [|apply Forall_cons].
          - eapply Forall_impl; [|exact F1]. intros w W. apply up_ok in W. apply up_ok. unfold upto in *. lia.
          - apply up_ok. exact U.
          - eapply Forall_impl; [|exact F2]. intros w W. assert (~ upto w b) by (rewrite <- up_ok; congruence). apply up_ok. unfold upto in *. lia. }
        { exists l1, b, (l2 ++ [x]). split; [rewrite E, <- app_assoc; reflexivity|]. split; [reflexivity|]. split; [exact F1|]. apply Forall_app. split; [exact F2|]. apply Forall_cons; [exact U|constructor]. }
  - subst r. cbn [app]. assert (EY : ex y = true) by (assert (J : In y (filter ex c)) by (rewrite FE; left; reflexivity); apply filter_In in J; apply J). rewrite EY. cbn [andb]. destruct (ex x) eqn:X; [reflexivity|].
    assert (U : up x y = false). { destruct (up x y) eqn:U; [|reflexivity]. apply up_ok in U. apply ex_ok in EY. assert (~ exact lineno column x) by (rewrite <- ex_ok; congruence). unfold upto, exact, behind in *. lia. }
    rewrite U, app_nil_r. reflexivity.
Qed.

(* the lines found *)
Lemma of_app : forall t f a b, of_file t f (a ++ b) = of_file t f a ++ of_file t f b.
Proof using. intros. unfold of_file. rewrite filter_app, map_app. reflexivity. Qed.
Lemma of_one : forall t f x, of_file t f [x] = if (o_table x =? t) && (n_file (o_line x) =? f) then [o_line x] else [].
Proof using. intros. unfold of_file. cbn [filter]. destruct (_ && _); reflexivity. Qed.
Lemma find_file : forall m x, match find (fun o => same_file o x) m with
  | Some o => exists r, of_file (o_table x) (n_file (o_line x)) m = o_line o :: r /\ of_file (o_table x) (n_file (o_line x)) (replace m x) = o_line x :: r
  | None => of_file (o_table x) (n_file (o_line x)) m = [] end.
Proof using.
  induction m as [|y m IH]; intro x; cbn [find]; [reflexivity|]. unfold of_file in *. cbn [filter replace]. unfold same_file in *. destruct ((o_table y =? o_table x) && (n_file (o_line y) =? n_file (o_line x))) eqn:S1.
  - exists (map o_line (filter (fun z => (o_table z =? o_table x) && (n_file (o_line z) =? n_file (o_line x))) m)). split; [reflexivity|]. cbn [filter]. rewrite !Z.eqb_refl. reflexivity.
  - specialize (IH x). destruct (find _ m) as [o|]; [|exact IH]. cbn [filter]. rewrite S1. exact IH.
Qed.
Lemma replace_other : forall m x t f, (o_table x =? t) && (n_file (o_line x) =? f) = false -> of_file t f (replace m x) = of_file t f m.
Proof using.
  intros m x t f N. induction m as [|y m IH]; [reflexivity|]. cbn [replace]. unfold same_file. destruct ((o_table y =? o_table x) && (n_file (o_line y) =? n_file (o_line x))) eqn:S1; unfold of_file in *; cbn [filter].
  - rewrite N. replace ((o_table y =? t) && (n_file (o_line y) =? f)) with false by lia. reflexivity.
  - destruct ((o_table y =? t) && _); cbn [map]; rewrite IH; reflexivity.
Qed.
Lemma replace_len : forall m x, zlen (replace m x) = zlen m.
Proof using. induction m as [|y m IH]; intro x; cbn [replace]; [reflexivity|]. destruct (same_file y x); rewrite !zlen_cons; [reflexivity|rewrite IH; reflexivity]. Qed.

Definition inv (c m : list found) : Prop :=
  (zlen m <= max /\ zlen m <= zlen c) /\ Forall (fun x => behind lineno column (o_line x)) c /\
  forall t f, exists rest, bestb (of_file t f c) (of_file t f m ++ rest) /\ (zlen m < max -> rest = []).
Lemma of_behind : forall c t f, Forall (fun x => behind lineno column (o_line x)) c -> Forall (behind lineno column) (of_file t f c).
Proof using. intros c t f F. unfold of_file. apply Forall_map. rewrite Forall_forall in *. intros x I. apply filter_In in I as (I & _). exact (F x I). Qed.
Lemma best_exists : forall c, Forall (behind lineno column) c -> exists r, bestb c r.
Proof using.
  intro c. induction c as [|x c IH] using rev_ind; intro F; [exists []; reflexivity|]. pose proof F as F'. apply Forall_app in F' as (FC & _). destruct (IH FC) as (r & B). eexists. exact (best_step c r x B F).
Qed.
Lemma add_ok : forall c m x, 0 < max -> inv c m -> behind lineno column (o_line x) -> inv (c ++ [x]) (add lineno column max m x).
Proof using.
  intros c m x M ((LM & LC) & F & B) X. assert (F' : Forall (fun y => behind lineno column (o_line y)) (c ++ [x])) by (apply Forall_app; split; [exact F|apply Forall_cons; [exact X|constructor]]).
  assert (LEN : zlen (add lineno column max m x) <= max /\ zlen (add lineno column max m x) <= zlen (c ++ [x])).
  { rewrite zlen_app. change (zlen [x]) with 1. unfold add. destruct (find _ m); [destruct (differs _ _ _ _); [destruct (better _ _); [rewrite replace_len; lia|lia]|]|]; destruct (zlen m <? max) eqn:Z0; try rewrite zlen_app; change (zlen [x]) with 1; lia. }
  split; [exact LEN|]. split; [exact F'|]. intros t f. destruct (B t f) as (rest & BB & RS). pose proof (of_behind _ t f F') as FB. rewrite of_app, of_one in FB |- *. destruct ((o_table x =? t) && (n_file (o_line x) =? f)) eqn:KEY.
  - assert (KT : t = o_table x) by lia. assert (KF : f = n_file (o_line x)) by lia. pose proof (find_file m x) as FF. pose proof (best_step _ _ _ BB FB) as BS. unfold add.
    destruct (find (fun o => same_file o x) m) as [o|] eqn:FD.
    + destruct FF as (r & F1 & F2). rewrite <- KT, <- KF in F1, F2. rewrite F1 in BB, BS. cbn [app] in BS. rewrite differs_ex, better_up. destruct (ex (o_line o) && ex (o_line x)) eqn:EE; cbn [negb].
      * destruct (zlen m <? max) eqn:Z0.
        { exists []. split; [|reflexivity]. rewrite (RS ltac:(lia)), !app_nil_r in BS. rewrite app_nil_r, of_app, of_one, KEY, F1. exact BS. }
        { exists (rest ++ [o_line x]). split; [rewrite F1; cbn [app]; rewrite app_assoc; exact BS|lia]. }
      * destruct (up (o_line x) (o_line o)) eqn:U.
        { rewrite F2. cbn [app]. assert (r ++ rest = []).
          { (* only one: not exact, or x would not be nearer *)
            unfold bestb in BB. destruct (filter ex (of_file t f c)) as [|y fl] eqn:FE.
            - destruct (of_file t f c); [discriminate|]. destruct BB as (l1 & b & l2 & _ & R & _). cbn [app] in R. injection R as _ R. exact R.
            - exfalso. cbn [app] in BB. injection BB as BB _. assert (EO : ex (o_line o) = true) by (rewrite BB; assert (J : In y (filter ex (of_file t f c))) by (rewrite FE; left; reflexivity); apply filter_In in J; apply J). rewrite EO in EE. cbn [andb] in EE.
              apply up_ok in U. apply ex_ok in EO. assert (~ exact lineno column (o_line x)) by (rewrite <- ex_ok; congruence). unfold upto, exact, behind in *. lia. }
          exists []. split; [|reflexivity]. rewrite app_nil_r. apply app_eq_nil in H as (-> & _). exact BS. }
        { exists rest. split; [rewrite F1; cbn [app]; exact BS|exact RS]. }
    + rewrite <- KT, <- KF in FF. rewrite FF in BB. cbn [app] in BB. destruct (zlen m <? max) eqn:Z0.
      * rewrite (RS ltac:(lia)) in BB. pose proof (bestb_nil _ BB) as CN. rewrite of_app, of_one, KEY, FF. exists []. split; [|reflexivity]. rewrite CN in *. cbn [app] in *. specialize (best_step [] [] (o_line x) eq_refl FB). intro Q. exact Q.
      * destruct (best_exists _ FB) as (r & R). exists r. split; [rewrite FF; exact R|lia].
  - rewrite app_nil_r. assert (SAME : of_file t f (add lineno column max m x) = of_file t f m).
    { unfold add. destruct (find _ m); [destruct (differs _ _ _ _); [destruct (better _ _); [apply replace_other; exact KEY|reflexivity]|]|]; destruct (zlen m <? max); try reflexivity; rewrite of_app, of_one, KEY, app_nil_r; reflexivity. }
    rewrite SAME. exists rest. split; [exact BB|]. intro Z0. apply RS.
    revert Z0. unfold add. destruct (find _ m); [destruct (differs _ _ _ _); [destruct (better _ _); [rewrite replace_len; auto|auto]|]|]; destruct (zlen m <? max) eqn:Z1; try rewrite zlen_app; change (zlen [x]) with 1; lia.
Qed.
End fold.

Section scan.
Variables (fname : bytes) (lineno column max : Z).
Hypothesis L0 : lineno <> 0.
Hypothesis M0 : 0 < max.
(* what lastfile and lastmatch say *)
Definition remembers (names : list bytes) (last : Z) (b : bool) : Prop :=
  (last = two32 - 1 /\ b = false /\ znth names last = None) \/ exists name, znth names last = Some name /\ b = name_is fname name.
Lemma scan_step : forall t names l ls last b m name, remembers names last b -> znth names (n_file l) = Some name ->
  scan fname lineno column max t names (l :: ls) last b m = scan fname lineno column max t names ls (n_file l) (name_is fname name) (if name_is fname name && negb (cannot lineno column l) then add lineno column max m (Found t l) else m).
Proof using.
  intros t names l ls last b m name R N. cbn [scan]. destruct (last =? n_file l) eqn:E; [|rewrite N; reflexivity]. apply Z.eqb_eq in E. subst last. destruct R as [(_ & _ & R)|(nm & R & ->)]; rewrite N in R; [discriminate|]. injection R as <-. reflexivity.
Qed.
Lemma scan_ok : forall t names lines c, candidates fname lineno column t names lines c -> forall last b pre m, remembers names last b -> inv lineno column max pre m ->
  exists m', scan fname lineno column max t names lines last b m = Ok m' /\ inv lineno column max (pre ++ c) m'.
Proof using L0 M0.
  intros t names lines c C. induction C as [|l ls r name N NM B C IH|l ls r name N NB C IH]; intros last b pre m R I.
  - exists m. rewrite app_nil_r. split; [reflexivity|exact I].
  - rewrite (scan_step _ _ _ _ _ _ _ name R N). apply name_ok in NM. apply (cannot_ok lineno column L0) in B as B'. rewrite NM, B'. cbn [negb andb].
    assert (R' : remembers names (n_file l) true) by (right; exists name; split; [exact N|symmetry; exact NM]).
    destruct (IH (n_file l) true (pre ++ [Found t l]) _ R' (add_ok lineno column max pre m (Found t l) M0 I B)) as (m' & S1 & I'). exists m'. rewrite <- app_assoc in I'. split; [exact S1|exact I'].
  - rewrite (scan_step _ _ _ _ _ _ _ name R N). assert (R' : remembers names (n_file l) (name_is fname name)) by (right; exists name; split; [exact N|reflexivity]).
    replace (name_is fname name && negb (cannot lineno column l)) with false; [exact (IH _ _ pre m R' I)|]. symmetry. apply andb_false_iff. destruct (name_is fname name) eqn:NM; [right|left; reflexivity]. apply negb_false_iff. destruct (cannot lineno column l) eqn:CC; [reflexivity|]. exfalso. apply NB. split; [apply name_ok; exact NM|apply (cannot_ok lineno column L0); exact CC].
Qed.
Lemma start_remembers : forall names, zlen names < two32 -> remembers names (two32 - 1) false.
Proof using. intros names L. left. split; [reflexivity|]. split; [reflexivity|]. destruct (znth names (two32 - 1)) eqn:Z0; [|reflexivity]. apply SegProof.znth_in in Z0. lia. Qed.
Definition small (u : unit_lines) : Prop := match u with HasLines _ names _ => zlen names < two32 | _ => True end.
Lemma units_ok : forall us c, all_candidates fname lineno column us c -> Forall small us -> forall pre m, inv lineno column max pre m ->
  exists n c' m', (n <= length us)%nat /\ all_candidates fname lineno column (firstn n us) c' /\ units fname lineno column max us m = Ok m' /\ inv lineno column max (pre ++ c') m' /\ (n = length us /\ c' = c \/ zlen m' = max).
Proof using L0 M0.
  intros us c A. induction A as [|u us r U A IH|t names lines us c r C A IH]; intros F pre m I.
  - exists 0%nat, [], m. split; [lia|]. split; [constructor|]. split; [reflexivity|]. rewrite app_nil_r. split; [exact I|]. left. split; reflexivity.
  - apply Forall_cons_iff in F as (_ & F). destruct (IH F pre m I) as (n & c' & m' & N & A' & S1 & I' & O). exists (Datatypes.S n), c', m'. split; [cbn [length]; lia|]. split; [cbn [firstn]; apply A_skip; assumption|]. split; [cbn [units]; destruct U as [-> | ->]; exact S1|]. split; [exact I'|]. destruct O as [(-> & ->)|O]; [left; split; reflexivity|right; exact O].
  - apply Forall_cons_iff in F as (SM & F). cbn [small] in SM. destruct (scan_ok _ _ _ _ C (two32 - 1) false pre m (start_remembers names SM) I) as (m1 & S1 & I1). cbn [units]. rewrite S1. cbn [obind]. destruct (zlen m1 =? max) eqn:Z0.
    + exists 1%nat, (c ++ []), m1. split; [cbn [length]; lia|]. split; [cbn [firstn]; apply A_unit; [exact C|constructor]|]. split; [reflexivity|]. rewrite app_nil_r. split; [exact I1|]. right. lia.
    + destruct (IH F (pre ++ c) m1 I1) as (n & c' & m' & N & A' & S2 & I' & O). exists (Datatypes.S n), (c ++ c'), m'. split; [cbn [length]; lia|]. split; [cbn [firstn]; apply A_unit; assumption|]. split; [exact S2|]. rewrite app_assoc. split; [exact I'|]. destruct O as [(-> & ->)|O]; [left; split; reflexivity|right; exact O].
Qed.
(* a line of a file that the table does not have *)
Lemma scan_bad : forall t names l1 l l2 c, candidates fname lineno column t names l1 c -> znth names (n_file l) = None -> n_file l <> two32 - 1 -> forall last b m, remembers names last b -> scan fname lineno column max t names (l1 ++ l :: l2) last b m = Err DWARF_E_INVALID_DWARF.
Proof using.
  intros t names l1 l l2 c C N NM. induction C as [|y ls r name Y NY B C IH|y ls r name Y NB C IH]; intros last b m R; cbn [app].
  - cbn [scan]. replace (last =? n_file l) with false; [rewrite N; reflexivity|]. destruct R as [(-> & _)|(nm & R & _)]; [lia|]. destruct (last =? n_file l) eqn:E; [|reflexivity]. apply Z.eqb_eq in E. subst last. congruence.
  - rewrite (scan_step _ _ _ _ _ _ _ name R Y). apply IH. right. exists name. split; [exact Y|reflexivity].
  - rewrite (scan_step _ _ _ _ _ _ _ name R Y). apply IH. right. exists name. split; [exact Y|reflexivity].
Qed.
End scan.
Lemma inv_nil : forall lineno column max, 0 < max -> inv lineno column max [] [].
Proof. intros. split; [change (zlen []) with 0; change (zlen []) with 0; lia|]. split; [constructor|]. intros t f. exists []. split; [reflexivity|reflexivity]. Qed.
Lemma of_in : forall t f c l, In l (of_file t f c) -> In (Found t l) c /\ n_file l = f.
Proof. intros t f c l I. unfold of_file in I. apply in_map_iff in I as ([t' l'] & E & I). cbn in E. subst l'. apply filter_In in I as (I & K). cbn [o_table o_line] in K. apply andb_true_iff in K as (K1 & K2). apply Z.eqb_eq in K1, K2. subst. split; [exact I|reflexivity]. Qed.
Lemma in_of : forall t c l, In (Found t l) c -> In l (of_file t (n_file l) c).
Proof. intros t c l I. unfold of_file. apply in_map_iff. exists (Found t l). split; [reflexivity|]. apply filter_In. split; [exact I|]. cbn. rewrite !Z.eqb_refl. reflexivity. Qed.
