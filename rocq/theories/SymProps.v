(* C39: symbols by address; C55: numbering of the symbols of a module. *)
From Verif Require Import Base SymModel SymSpec SymProof.
From Coq Require Import ZifyBool Permutation.

Lemma globals_eq t fg : 0 <= fg -> skipn (Z.to_nat (if fg =? 0 then 1 else fg)) t = globals t fg.
Proof. intro H. unfold globals. f_equal. f_equal. destruct (fg =? 0) eqn:E; lia. Qed.
Lemma locals_eq t fg : 1 < fg -> firstn (Z.to_nat (fg - 1)) (skipn 1 t) = locals t fg.
Proof. intro H. unfold locals. rewrite firstn_skipn_comm. f_equal. f_equal. lia. Qed.
Lemma locals_none t fg : fg <= 1 -> locals t fg = [].
Proof. intro H. unfold locals. apply skipn_all2. rewrite firstn_length. lia. Qed.
Lemma ok_tries i addr t : tab_ok t -> is_u64 addr -> Forall (ok1 addr) (flat_map (tries i addr) t).
Proof.
  intros T A. apply Forall_forall. intros [[m v] r] H. apply tries_in in H. destruct H as (HI & (_ & _ & E & _) & H).
  destruct (T m HI) as (_ & S1 & S2). unfold ok1. cbn [fst snd]. split; [|split; assumption]. unfold is_u64 in *.
  destruct H as [[-> _]|(_ & _ & -> & LE & _)]; [lia|]. split; [apply Z.mod_pos_bound; lia|lia].
Qed.
Lemma tab_ok_skipn t n : tab_ok t -> tab_ok (skipn n t).
Proof. intros H m HI. apply H. rewrite <- (firstn_skipn n t). apply in_app_iff. right. exact HI. Qed.
Lemma tab_ok_firstn t n : tab_ok t -> tab_ok (firstn n t).
Proof. intros H m HI. apply H. rewrite <- (firstn_skipn n t). apply in_app_iff. left. exact HI. Qed.
Lemma ok_globals t fg : tab_ok t -> tab_ok (globals t fg).
Proof. apply tab_ok_skipn. Qed.
Lemma ok_locals t fg : tab_ok t -> tab_ok (locals t fg).
Proof. intro H. apply tab_ok_skipn, tab_ok_firstn, H. Qed.
Lemma considered_app i addr a b m v f : considered i addr (a ++ b) m v f <-> considered i addr a m v f \/ considered i addr b m v f.
Proof. unfold considered. rewrite in_app_iff. tauto. Qed.

(* the two passes *)
Definition pass1 i addr t fg := fold_left (step i addr) (flat_map (tries i addr) (globals t fg)) (Sst SHN_UNDEF None None None 0).
Definition skip2 addr (s : sst) := match k_best s with Some _ => true | None => match k_less s with None => false | Some (_, v) => v =? addr end end.
Definition pass2 i addr t fg := if skip2 addr (pass1 i addr t fg) then pass1 i addr t fg else fold_left (step i addr) (flat_map (tries i addr) (locals t fg)) (pass1 i addr t fg).
Definition pick (s : sst) := match k_best s with
    | Some b => Some b
    | None => match k_less s with Some (m, v) => if k_min s <=? v then Some (m, v) else None | None => None end
    end.
Lemma addrsym_passes i addr t fg : 0 <= fg -> addrsym i addr t fg = pick (pass2 i addr t fg).
Proof.
  intro H. unfold addrsym. replace (fg <? 0) with false by lia. rewrite globals_eq by assumption. cbv zeta. rewrite search_tries. fold (pass1 i addr t fg).
  unfold pass2, skip2, pick. destruct (k_best (pass1 i addr t fg)) eqn:EB; [rewrite EB; reflexivity|].
  destruct (1 <? fg) eqn:E1; cbn [andb].
  - rewrite locals_eq by lia. rewrite search_tries. destruct (k_less (pass1 i addr t fg)) as [[m v]|] eqn:EL; [|reflexivity].
    destruct (v =? addr); cbn [negb]; [rewrite EB, EL|]; reflexivity.
  - rewrite locals_none by lia. cbn [flat_map fold_left]. destruct (match k_less (pass1 i addr t fg) with None => false | Some (_, v) => v =? addr end); reflexivity.
Qed.
Lemma inv1 i addr t fg : tab_ok t -> is_u64 addr -> inv i addr (flat_map (tries i addr) (globals t fg)) (pass1 i addr t fg).
Proof. intros T A. apply (inv_fold i addr _ [] _ (inv_init i addr)). apply ok_tries; [apply ok_globals|]; assumption. Qed.
Lemma inv2 i addr t fg : tab_ok t -> is_u64 addr -> skip2 addr (pass1 i addr t fg) = false ->
  inv i addr (flat_map (tries i addr) (globals t fg ++ locals t fg)) (pass2 i addr t fg).
Proof.
  intros T A SK. unfold pass2. rewrite SK, flat_map_app. apply inv_fold; [apply inv1; assumption|]. apply ok_tries; [apply ok_locals|]; assumption.
Qed.
Lemma none_holds i addr t s : inv i addr (flat_map (tries i addr) t) s -> k_best s = None -> forall m v f, considered i addr t m v f -> ~ holds addr m v.
Proof.
  intros V N m v f C. destruct (in_tries _ _ _ _ _ _ C) as (r & HI & _). exact (proj1 (Forall_forall _ _) (inv_none _ _ _ _ V N) (m, v, r) HI).
Qed.

(* C39: what is found has a name and is defined, does not lie above the address, and either contains the address or is a label
   at the address or in its section. *)
Theorem C39_found : forall i addr t fg m v, tab_ok t -> is_u64 addr ->
  addrsym i addr t fg = Some (m, v) ->
  exists f, considered i addr (globals t fg ++ locals t fg) m v f /\ 0 <= v <= addr /\ (holds addr m v \/ label i addr m v f).
Proof.
  intros i addr t fg m v T A E. assert (FG : 0 <= fg) by (unfold addrsym in E; destruct (fg <? 0) eqn:EF; [discriminate E|lia]).
  rewrite addrsym_passes in E by assumption.
  assert (K : forall l s, tab_ok l -> inv i addr (flat_map (tries i addr) l) s -> pick s = Some (m, v) -> exists f, considered i addr l m v f /\ 0 <= v <= addr /\ (holds addr m v \/ label i addr m v f)).
  { intros l s TL V EP. assert (X : exists r, In (m, v, r) (flat_map (tries i addr) l) /\ (holds addr m v \/ label i addr m v (file_of i m r))).
    { unfold pick in EP. destruct (k_best s) as [[b w]|] eqn:EB.
      - injection EP as -> ->. destruct (inv_some _ _ _ _ V m v EB) as (r & H1 & H2). exists r. auto.
      - destruct (k_less s) as [[b w]|] eqn:EL; [|discriminate EP]. destruct (k_min s <=? w); [|discriminate EP]. injection EP as -> ->.
        destruct (inv_less _ _ _ _ V m v EL) as (r & H1 & H2). exists r. auto. }
    destruct X as (r & H1 & H2). exists (file_of i m r). split; [apply tries_in; assumption|]. split; [|assumption].
    apply (proj1 (Forall_forall _ _) (ok_tries i addr l TL A)) in H1. unfold ok1 in H1. cbn [fst snd] in H1. apply H1. }
  destruct (skip2 addr (pass1 i addr t fg)) eqn:SK.
  - unfold pass2 in E. rewrite SK in E. destruct (K _ _ (ok_globals t fg T) (inv1 i addr t fg T A) E) as (f & H1 & H2). exists f. split; [apply considered_app; left; assumption|assumption].
  - apply (K _ _ ltac:(intros x; rewrite in_app_iff; intros [X|X]; [apply (ok_globals t fg T x X)|apply (ok_locals t fg T x X)]) (inv2 i addr t fg T A SK) E).
Qed.

(* C39: a sized symbol that contains the address is preferred: among the global symbols first, and among the local ones unless a
   global label is exactly at the address. *)
Theorem C39_sized_first : forall i addr t fg, tab_ok t -> is_u64 addr -> 0 <= fg ->
  ((exists m v f, considered i addr (globals t fg) m v f /\ holds addr m v) ->
   exists m v f, addrsym i addr t fg = Some (m, v) /\ considered i addr (globals t fg) m v f /\ holds addr m v) /\
  ((exists m v f, considered i addr (locals t fg) m v f /\ holds addr m v) ->
   (forall m v f, considered i addr (globals t fg) m v f -> ~ holds addr m v) ->
   (forall m f, considered i addr (globals t fg) m addr f -> ~ label i addr m addr f) ->
   exists m v f, addrsym i addr t fg = Some (m, v) /\ considered i addr (locals t fg) m v f /\ holds addr m v).
Proof.
  intros i addr t fg T A FG. rewrite addrsym_passes by assumption. pose proof (inv1 i addr t fg T A) as V1. split.
  - intros (m & v & f & C & H). unfold pass2, skip2.
    destruct (k_best (pass1 i addr t fg)) as [[b w]|] eqn:EB.
    + unfold pick. rewrite EB. destruct (inv_some _ _ _ _ V1 b w EB) as (r & H1 & H2). exists b, w, (file_of i b r). split; [reflexivity|]. split; [apply tries_in; assumption|assumption].
    + exfalso. exact (none_holds i addr _ _ V1 EB m v f C H).
  - intros (m & v & f & C & H) NG NL.
    assert (EB1 : k_best (pass1 i addr t fg) = None).
    { destruct (k_best (pass1 i addr t fg)) as [[b w]|] eqn:EB; [|reflexivity]. destruct (inv_some _ _ _ _ V1 b w EB) as (r & H1 & H2). exfalso. exact (NG _ _ _ (tries_in _ _ _ _ _ _ H1) H2). }
    assert (SK : skip2 addr (pass1 i addr t fg) = false).
    { unfold skip2. rewrite EB1. destruct (k_less (pass1 i addr t fg)) as [[b w]|] eqn:EL; [|reflexivity]. destruct (inv_less _ _ _ _ V1 b w EL) as (r & H1 & H2).
      destruct (w =? addr) eqn:EW; [|reflexivity]. assert (w = addr) by lia. subst w. exfalso. exact (NL _ _ (tries_in _ _ _ _ _ _ H1) H2). }
    pose proof (inv2 i addr t fg T A SK) as V2.
    destruct (k_best (pass2 i addr t fg)) as [[b w]|] eqn:EB.
    + unfold pick. rewrite EB. destruct (inv_some _ _ _ _ V2 b w EB) as (r & H1 & H2). exists b, w, (file_of i b r). split; [reflexivity|].
      apply tries_in in H1. apply considered_app in H1. destruct H1 as [H1|H1]; [exfalso; exact (NG _ _ _ H1 H2)|]. split; assumption.
    + exfalso. apply (none_holds i addr _ _ V2 EB m v f); [apply considered_app; right; assumption|assumption].
Qed.

Lemma flat_split {X Y} (g : X -> list Y) l : forall A b B, flat_map g l = A ++ b :: B ->
  exists l1 e l2 A2 B2, l = l1 ++ e :: l2 /\ A = flat_map g l1 ++ A2 /\ g e = A2 ++ b :: B2 /\ B = B2 ++ flat_map g l2.
Proof.
  induction l as [|e l IH]; intros A b B E; cbn [flat_map] in E; [destruct A; discriminate E|].
  assert (D : (exists A2, A = g e ++ A2 /\ flat_map g l = A2 ++ b :: B) \/ (exists B2, g e = A ++ b :: B2 /\ B = B2 ++ flat_map g l)).
  { revert A E. generalize (g e). intro k. induction k as [|x k IK]; intros A E; cbn [app] in E; [left; exists A; split; [reflexivity|assumption]|].
    destruct A as [|y A]; cbn [app] in E.
    - injection E as E1 E2. subst x B. right. exists k. split; reflexivity.
    - injection E as E1 E2. subst y. destruct (IK A E2) as [(A2 & -> & H)|(B2 & -> & ->)]; [left; exists A2; split; [reflexivity|assumption]|right; exists B2; split; reflexivity]. }
  destruct D as [(A2 & -> & H)|(B2 & H & ->)].
  - destruct (IH A2 b B H) as (l1 & e' & l2 & A3 & B3 & -> & -> & E3 & ->). exists (e :: l1), e', l2, A3, B3. cbn [flat_map app]. rewrite app_assoc. auto.
  - exists [], e, l, A, B2. cbn [flat_map app]. auto.
Qed.
Lemma tries_sym i addr e m v r : In (m, v, r) (tries i addr e) -> e = Some m.
Proof.
  destruct e as [x|]; cbn [tries]; [|intros []].
  destruct (negb (match y_name x with [] => true | _ => false end) && negb (y_shn x =? SHN_UNDEF) && (y_val x <=? addr) && negb (y_type x =? 3) && negb (y_type x =? 4) && negb (y_type x =? 6)); [|intros []].
  intros [E|H]; [congruence|]. destruct (y_res x && negb (i_rel i)); [|destruct H]. cbv zeta in H.
  destruct (negb (y_val x =? u64 (y_st x + i_bias i (y_elf x))) && (u64 (y_st x + i_bias i (y_elf x)) <=? addr)); [|destruct H]. destruct H as [H|[]]; congruence.
Qed.

(* [m] at [v] is the first of the best ranked symbols of [l] that contain the address *)
Definition best_in (i : minfo) (addr : Z) (l : list (option msym)) (m : msym) (v : Z) : Prop :=
  holds addr m v /\ (exists f, considered i addr l m v f) /\
  exists l1 l2, l = l1 ++ Some m :: l2 /\
    (forall m' v' f', considered i addr l1 m' v' f' -> holds addr m' v' -> before m v m' v') /\
    (forall m' v' f', considered i addr l m' v' f' -> holds addr m' v' -> before m v m' v' \/ level m v m' v').

Lemma best_pass i addr l s : tab_ok l -> is_u64 addr -> agree i addr l -> k_best s = None ->
  (exists m v f, considered i addr l m v f /\ holds addr m v) ->
  exists m v, k_best (fold_left (step i addr) (flat_map (tries i addr) l) s) = Some (m, v) /\ best_in i addr l m v.
Proof.
  intros T A AG N (m0 & v0 & f0 & C0 & H0).
  destruct (pass_best i addr (flat_map (tries i addr) l) s N (ok_tries i addr l T A)) as [[E F]|(b & X & Y & E & EB & HB & FX & FY)].
  - intros [[m v] r] [[m' v'] r'] I1 I2 H1 H2 LT. apply tries_in in I1. apply tries_in in I2. exact (AG _ _ _ _ _ _ I1 I2 H1 H2 LT).
  - exfalso. destruct (in_tries _ _ _ _ _ _ C0) as (r & HI & _). exact (proj1 (Forall_forall _ _) F (m0, v0, r) HI H0).
  - destruct b as [[m v] r]. exists m, v. split; [exact EB|]. split; [exact HB|].
    assert (INb : In (m, v, r) (flat_map (tries i addr) l)) by (rewrite E; apply in_app_iff; right; left; reflexivity).
    split; [exists (file_of i m r); apply tries_in; assumption|].
    destruct (flat_split _ _ _ _ _ E) as (l1 & e & l2 & A2 & B2 & EL & EX & EG & EY).
    assert (EM : e = Some m) by (apply (tries_sym i addr e m v r); rewrite EG; apply in_app_iff; right; left; reflexivity). subst e.
    exists l1, l2. split; [assumption|]. split.
    + intros m' v' f' C H. destruct (in_tries _ _ _ _ _ _ C) as (r' & HI & _).
      assert (IX : In (m', v', r') X) by (rewrite EX; apply in_app_iff; left; assumption).
      exact (proj1 (Forall_forall _ _) FX _ IX H).
    + intros m' v' f' C H. destruct (in_tries _ _ _ _ _ _ C) as (r' & HI & _). rewrite E in HI. apply in_app_iff in HI. destruct HI as [HI|[HI|HI]].
      * left. exact (proj1 (Forall_forall _ _) FX _ HI H).
      * right. injection HI as -> -> ->. unfold level. auto.
      * exact (proj1 (Forall_forall _ _) FY _ HI H).
Qed.

(* C39: where closeness and binding do not contradict each other, the result is the closest symbol that contains the address, the strongest
   and then shortest of those, and the first in the table where that leaves a choice. *)
Theorem C39_closest_partial : forall i addr t fg, tab_ok t -> is_u64 addr -> 0 <= fg ->
  ((exists m v f, considered i addr (globals t fg) m v f /\ holds addr m v) -> agree i addr (globals t fg) ->
   exists m v, addrsym i addr t fg = Some (m, v) /\ best_in i addr (globals t fg) m v) /\
  ((exists m v f, considered i addr (locals t fg) m v f /\ holds addr m v) -> agree i addr (locals t fg) ->
   (forall m v f, considered i addr (globals t fg) m v f -> ~ holds addr m v) ->
   (forall m f, considered i addr (globals t fg) m addr f -> ~ label i addr m addr f) ->
   exists m v, addrsym i addr t fg = Some (m, v) /\ best_in i addr (locals t fg) m v).
Proof.
  intros i addr t fg T A FG. rewrite addrsym_passes by assumption. pose proof (inv1 i addr t fg T A) as V1. split.
  - intros EX AG. destruct (best_pass i addr (globals t fg) (Sst SHN_UNDEF None None None 0) (ok_globals t fg T) A AG eq_refl EX) as (m & v & E & B).
    exists m, v. split; [|assumption]. fold (pass1 i addr t fg) in E. unfold pass2, skip2, pick. rewrite E, E. reflexivity.
  - intros EX AG NG NL.
    assert (EB1 : k_best (pass1 i addr t fg) = None).
    { destruct (k_best (pass1 i addr t fg)) as [[b w]|] eqn:EB; [|reflexivity]. destruct (inv_some _ _ _ _ V1 b w EB) as (r & H1 & H2). exfalso. exact (NG _ _ _ (tries_in _ _ _ _ _ _ H1) H2). }
    assert (SK : skip2 addr (pass1 i addr t fg) = false).
    { unfold skip2. rewrite EB1. destruct (k_less (pass1 i addr t fg)) as [[b w]|] eqn:EL; [|reflexivity]. destruct (inv_less _ _ _ _ V1 b w EL) as (r & H1 & H2).
      destruct (w =? addr) eqn:EW; [|reflexivity]. assert (w = addr) by lia. subst w. exfalso. exact (NL _ _ (tries_in _ _ _ _ _ _ H1) H2). }
    destruct (best_pass i addr (locals t fg) (pass1 i addr t fg) (ok_locals t fg T) A AG EB1 EX) as (m & v & E & B).
    exists m, v. split; [|assumption]. unfold pass2. rewrite SK. unfold pick. rewrite E. reflexivity.
Qed.

(* C39: with a strict ranking the order of the global symbols does not matter. *)
Theorem C39_order_partial : forall i addr t t' fg, tab_ok t -> is_u64 addr -> 0 <= fg ->
  Permutation (globals t fg) (globals t' fg) -> tab_ok t' -> agree i addr (globals t fg) ->
  (exists m v f, considered i addr (globals t fg) m v f /\ holds addr m v) ->
  (forall m v f m' v' f', considered i addr (globals t fg) m v f -> considered i addr (globals t fg) m' v' f' -> holds addr m v -> holds addr m' v' ->
     level m v m' v' -> m = m' /\ v = v') ->
  addrsym i addr t' fg = addrsym i addr t fg.
Proof.
  intros i addr t t' fg T A FG P T' AG EX ST.
  assert (CC : forall m v f, considered i addr (globals t fg) m v f <-> considered i addr (globals t' fg) m v f).
  { intros m v f. unfold considered. split; intros (H & R); (split; [|exact R]); [exact (Permutation_in _ P H)|exact (Permutation_in _ (Permutation_sym P) H)]. }
  destruct (proj1 (C39_closest_partial i addr t fg T A FG) EX AG) as (m & v & E & H & (f & C) & l1 & l2 & _ & _ & B).
  destruct (proj1 (C39_closest_partial i addr t' fg T' A FG)) as (m' & v' & E' & H' & (f' & C') & l1' & l2' & _ & _ & B').
  - destruct EX as (x & y & z & X & Y). exists x, y, z. split; [apply CC; assumption|assumption].
  - intros a b c d e g X Y. apply AG with (f := c) (f' := g); apply CC; assumption.
  - rewrite E, E'. f_equal. apply CC in C'. pose proof (B _ _ _ C' H') as B1. apply CC in C. pose proof (B' _ _ _ C H) as B2. apply CC in C.
    assert (L : level m v m' v') by (clear - B1 B2; unfold before, level in *; lia).
    destruct (ST _ _ _ _ _ _ C C' H H' L) as [-> ->]. reflexivity.
Qed.

Lemma not_hold_end addr x : ok1 addr x -> ~ hold1 addr x -> end1 x <= addr.
Proof.
  destruct x as [[m v] r]. unfold ok1, hold1, holds, end1, is_u64, u64. cbn [fst snd]. intros (B & S1 & AD) N.
  rewrite Z.mod_small; lia.
Qed.

(* C39: the result is without a size only if no considered global symbol contains the address, and there is none at all only if no considered
   symbol does.  A label is the closest one: no considered symbol of those searched ends behind it, and it is only kept from the local symbols by being exactly at the address. *)
Theorem C39_unsized : forall i addr t fg, tab_ok t -> is_u64 addr -> 0 <= fg ->
  (addrsym i addr t fg = None -> forall m v f, considered i addr (globals t fg ++ locals t fg) m v f -> ~ holds addr m v) /\
  (forall m v, addrsym i addr t fg = Some (m, v) -> y_size m = 0 ->
     (forall m' v' f', considered i addr (globals t fg) m' v' f' -> v' + y_size m' <= v) /\
     (v = addr \/ forall m' v' f', considered i addr (locals t fg) m' v' f' -> v' + y_size m' <= v)).
Proof.
  intros i addr t fg T A FG. rewrite addrsym_passes by assumption. pose proof (inv1 i addr t fg T A) as V1.
  assert (TT : tab_ok (globals t fg ++ locals t fg)) by (intros x; rewrite in_app_iff; intros [X|X]; [apply (ok_globals t fg T x X)|apply (ok_locals t fg T x X)]).
  assert (EN : forall l s m v f, tab_ok l -> inv i addr (flat_map (tries i addr) l) s -> k_best s = None -> considered i addr l m v f -> v + y_size m <= k_min s).
  { intros l s m v f TL V N C. destruct (in_tries _ _ _ _ _ _ C) as (r & HI & _).
    pose proof (proj1 (Forall_forall _ _) (ok_tries i addr l TL A) _ HI) as K. pose proof (proj1 (Forall_forall _ _) (inv_none _ _ _ _ V N) _ HI) as NH.
    pose proof (proj1 (Forall_forall _ _) (inv_min _ _ _ _ V) _ HI) as M. cbn beta in *.
    unfold ok1, hold1, holds, end1, is_u64, u64 in *. cbn [fst snd] in *. rewrite Z.mod_small in M; lia. }
  destruct (skip2 addr (pass1 i addr t fg)) eqn:SK.
  - unfold pass2. rewrite SK. unfold pick. unfold skip2 in SK. destruct (k_best (pass1 i addr t fg)) as [[b w]|] eqn:EB.
    + split; [discriminate|]. intros m v E Z0. injection E as -> ->. destruct (inv_some _ _ _ _ V1 m v EB) as (r & _ & H). unfold holds in H. lia.
    + destruct (k_less (pass1 i addr t fg)) as [[b w]|] eqn:EL; [|discriminate SK]. assert (w = addr) by lia. subst w.
      assert (MM : k_min (pass1 i addr t fg) <= addr).
      { destruct (inv_min0 _ _ _ _ V1) as [E0|(x & IX & E0)]; [unfold is_u64 in A; lia|]. rewrite E0.
        apply not_hold_end; [exact (proj1 (Forall_forall _ _) (ok_tries i addr _ (ok_globals t fg T) A) _ IX)|exact (proj1 (Forall_forall _ _) (inv_none _ _ _ _ V1 EB) _ IX)]. }
      replace (k_min (pass1 i addr t fg) <=? addr) with true by lia. split; [discriminate|].
      intros m v E Z0. injection E as -> <-. split; [|left; reflexivity].
      intros m' v' f' C. pose proof (EN _ _ _ _ _ (ok_globals t fg T) V1 EB C). lia.
  - pose proof (inv2 i addr t fg T A SK) as V2. unfold pick. destruct (k_best (pass2 i addr t fg)) as [[b w]|] eqn:EB.
    + split; [discriminate|]. intros m v E Z0. injection E as -> ->. destruct (inv_some _ _ _ _ V2 m v EB) as (r & _ & H). unfold holds in H. lia.
    + split; [intros _; exact (none_holds i addr _ _ V2 EB)|]. intros m v E Z0.
      destruct (k_less (pass2 i addr t fg)) as [[b w]|] eqn:EL; [|discriminate E]. destruct (k_min (pass2 i addr t fg) <=? w) eqn:EM; [|discriminate E]. injection E as -> ->.
      split; [|right]; intros m' v' f' C.
      * pose proof (EN _ _ m' v' f' TT V2 EB ltac:(apply considered_app; left; assumption)). lia.
      * pose proof (EN _ _ m' v' f' TT V2 EB ltac:(apply considered_app; right; assumption)). lia.
Qed.

(* C39: and a label is found, if no sized symbol contains the address and no considered symbol ends behind the label. *)
Theorem C39_label_partial : forall i addr t fg m v f, tab_ok t -> is_u64 addr -> 0 <= fg ->
  (forall m' v' f', considered i addr (globals t fg ++ locals t fg) m' v' f' -> v' + y_size m' <= v) ->
  considered i addr (globals t fg ++ locals t fg) m v f -> label i addr m v f ->
  exists m', addrsym i addr t fg = Some (m', v) /\ y_size m' = 0.
Proof.
  intros i addr t fg m v f T A FG UP C L. rewrite addrsym_passes by assumption. pose proof (inv1 i addr t fg T A) as V1.
  assert (TT : tab_ok (globals t fg ++ locals t fg)) by (intros x; rewrite in_app_iff; intros [X|X]; [apply (ok_globals t fg T x X)|apply (ok_locals t fg T x X)]).
  assert (VA : 0 <= v <= addr). { destruct (in_tries _ _ _ _ _ _ C) as (r & HI & _). apply (proj1 (Forall_forall _ _) (ok_tries i addr _ TT A) _ HI). }
  assert (NB : forall l s, (forall a b c, considered i addr l a b c -> considered i addr (globals t fg ++ locals t fg) a b c) -> inv i addr (flat_map (tries i addr) l) s -> k_best s = None /\ k_min s <= v).
  { intros l s SUB V. split.
    - destruct (k_best s) as [[b w]|] eqn:EB; [|reflexivity]. exfalso. destruct (inv_some _ _ _ _ V b w EB) as (r & HI & H).
      apply tries_in, SUB, UP in HI. unfold holds in H. lia.
    - destruct (inv_min0 _ _ _ _ V) as [E0|(x & IX & E0)]; [lia|]. rewrite E0. destruct x as [[b w] r]. apply tries_in, SUB in IX. pose proof (UP _ _ _ IX) as U.
      destruct (in_tries _ _ _ _ _ _ IX) as (r' & HI & _). pose proof (proj1 (Forall_forall _ _) (ok_tries i addr _ TT A) _ HI) as K.
      unfold ok1, end1, is_u64, u64 in *. cbn [fst snd] in *. rewrite Z.mod_small; lia. }
  destruct (skip2 addr (pass1 i addr t fg)) eqn:SK.
  - destruct (NB _ _ ltac:(intros; apply considered_app; left; eassumption) V1) as (EB & M).
    unfold pass2. rewrite SK. unfold skip2 in SK. rewrite EB in SK. unfold pick. rewrite EB.
    destruct (k_less (pass1 i addr t fg)) as [[b w]|] eqn:EL; [|discriminate SK].
    destruct (inv_less _ _ _ _ V1 b w EL) as (r & HI & LB). apply tries_in in HI.
    pose proof (UP b w _ ltac:(apply considered_app; left; exact HI)) as U. destruct LB as [Z0 _].
    assert (w = v) by lia. subst w. replace (k_min (pass1 i addr t fg) <=? v) with true by lia. exists b. split; [reflexivity|assumption].
  - pose proof (inv2 i addr t fg T A SK) as V2. destruct (NB _ _ (fun a b c H => H) V2) as (EB & M).
    destruct (in_tries _ _ _ _ _ _ C) as (r & HI & EF). subst f.
    assert (EV : v = k_min (pass2 i addr t fg)).
    { pose proof (proj1 (Forall_forall _ _) (inv_min _ _ _ _ V2) _ HI) as H. cbn beta in H. destruct L as [L0 _]. unfold end1 in H. cbn [fst snd] in H. rewrite L0, Z.add_0_r in H.
      unfold u64, is_u64 in *. rewrite Z.mod_small in H; lia. }
    destruct (inv_lab _ _ _ _ V2 EB m v r HI L EV) as (m' & EL). exists m'. unfold pick. rewrite EB, EL. replace (k_min (pass2 i addr t fg) <=? v) with true by lia.
    split; [reflexivity|]. destruct (inv_less _ _ _ _ V2 m' v EL) as (r' & _ & L'). apply L'.
Qed.

(* ------------------------------------------------------------------ *)
(* examples and refutations *)
Definition ex_info : minfo := Mi true false 0 (fun _ => 0) (fun _ => [(0, 4096)]) (fun _ => 0).
Definition ex_sym (name bind value size ndx : Z) : msym := Ms [name] bind 2 ndx value size value ndx 0 false.
Definition exG (l : list msym) : list (option msym) := None :: map Some l.

(* C39: the order of the table decides between a closer weak symbol and a global one *)
Theorem C39_order_refuted : exists i addr l l', Permutation l l' /\
  addrsym i addr (exG l) 1 = Some (ex_sym 97 2 20 100 1, 20) /\ addrsym i addr (exG l') 1 = Some (ex_sym 98 1 10 100 1, 10).
Proof.
  exists ex_info, 30, [ex_sym 98 1 10 100 1; ex_sym 97 2 20 100 1], [ex_sym 97 2 20 100 1; ex_sym 98 1 10 100 1].
  split; [apply perm_swap|]. split; vm_compute; reflexivity.
Qed.
(* C39: the result can be a symbol that another one beats in every respect: closer, as strong and shorter *)
Theorem C39_dominated_refuted : exists i addr t fg m v m' v' f', addrsym i addr t fg = Some (m, v) /\
  considered i addr (globals t fg) m' v' f' /\ holds addr m' v' /\ v < v' /\ strength m = strength m' /\ y_size m' < y_size m.
Proof.
  exists ex_info, 30, (exG [ex_sym 97 2 20 50 1; ex_sym 98 1 10 100 1; ex_sym 99 2 15 100 1]), 1, (ex_sym 99 2 15 100 1), 15, (ex_sym 97 2 20 50 1), 20, 0.
  split; [vm_compute; reflexivity|]. split.
  - split; [left; reflexivity|]. split; [|left; split; reflexivity]. unfold eligible. cbn. split; [discriminate|]. split; [discriminate|]. split; [discriminate|lia].
  - unfold holds. cbn. lia.
Qed.
(* C39: an absolute symbol below the address hides a label of the address's section: nothing is found *)
Theorem C39_label_refuted : exists i addr t fg m v f, addrsym i addr t fg = None /\ considered i addr (globals t fg) m v f /\ label i addr m v f.
Proof.
  exists ex_info, 30, (exG [ex_sym 97 1 20 0 1; ex_sym 98 1 25 0 65521]), 1, (ex_sym 97 1 20 0 1), 20, 0.
  split; [vm_compute; reflexivity|]. split.
  - split; [left; reflexivity|]. split; [|left; split; reflexivity]. unfold eligible. cbn. split; [discriminate|]. split; [discriminate|]. split; [discriminate|lia].
  - split; [reflexivity|]. cbn. exists [], 0, 4096, []. split; [reflexivity|]. split; [reflexivity|]. split; [cbn; lia|constructor].
Qed.

Definition ex_tab : list (option msym) :=
  None :: map Some [ex_sym 108 0 16 8 1; ex_sym 109 0 40 0 1] ++ map Some [ex_sym 97 2 20 50 1; ex_sym 98 1 22 20 1; ex_sym 99 1 22 10 1; ex_sym 100 1 22 10 1].
Example C39_nonvacuous :
  tab_ok ex_tab /\ agree ex_info 30 (globals ex_tab 3) /\
  addrsym ex_info 30 ex_tab 3 = Some (ex_sym 99 1 22 10 1, 22) /\ addrsym ex_info 17 ex_tab 3 = Some (ex_sym 108 0 16 8 1, 16) /\
  addrsym ex_info 80 (firstn 3 ex_tab) 3 = Some (ex_sym 109 0 40 0 1, 40) /\ addrsym ex_info 80 ex_tab 3 = None.
Proof.
  split.
  { intros m H. cbn in H. repeat (destruct H as [H|H]; [discriminate H || (injection H as <-; unfold sym_ok, is_u64; cbn; lia)|]). destruct H. }
  split; [|repeat split; vm_compute; reflexivity].
  intros m v f m' v' f' (H1 & _ & C1) (H2 & _ & C2) _ _ LT. cbn in H1, H2.
  repeat (destruct H1 as [H1|H1]; [injection H1 as <-; destruct C1 as [[-> _]|[C1 _]]; [|discriminate C1]; repeat (destruct H2 as [H2|H2]; [injection H2 as <-; destruct C2 as [[-> _]|[C2 _]]; [cbn in *; lia|discriminate C2]|]); destruct H2|]).
  destruct H1.
Qed.
Print Assumptions C39_found.
Print Assumptions C39_sized_first.
Print Assumptions C39_closest_partial.
Print Assumptions C39_order_partial.
Print Assumptions C39_unsized.
Print Assumptions C39_label_partial.
Print Assumptions C39_order_refuted.
Print Assumptions C39_dominated_refuted.
Print Assumptions C39_label_refuted.

(* ------------------------------------------------------------------ *)
(* C55: numbering *)
(* two tables, each with its local symbols first; entry 0 of a table is the null symbol.  Without an auxiliary table its counts are 0. *)
Definition tabs_ok (b : tabs) : Prop :=
  0 <= b_glob b <= b_syms b /\ 0 <= b_aglob b <= b_asyms b /\ (b_aux b = false -> b_asyms b = 0) /\ (b_aux b = true -> 0 < b_aglob b).
(* the entries that have a number: all of the main table, and all of the auxiliary one except its null symbol if there is a main one *)
Definition numbered (b : tabs) (p : bool * Z) : Prop :=
  if fst p then 0 <= snd p < b_syms b else (if 0 <? b_syms b then 1 else 0) <= snd p < b_asyms b.
Definition is_local (b : tabs) (p : bool * Z) : Prop := snd p < (if fst p then b_glob b else b_aglob b).

(* C55: every symbol of both tables has exactly one number below the count, and the local symbols of both come before all global ones. *)
Theorem C55_numbers : forall b, tabs_ok b ->
  (forall n, 0 <= n < symtab_count b -> numbered b (sym_pos b n)) /\
  (forall n n', 0 <= n < symtab_count b -> 0 <= n' < symtab_count b -> sym_pos b n = sym_pos b n' -> n = n') /\
  (forall p, numbered b p -> exists n, 0 <= n < symtab_count b /\ sym_pos b n = p) /\
  (forall n, 0 <= n < symtab_count b -> (n < symtab_first_global b <-> is_local b (sym_pos b n))).
Proof.
  intros [aux sy gl asy agl] (H1 & H2 & H3 & H4). unfold symtab_count, symtab_first_global, numbered, is_local, sym_pos, skip_zero in *. cbn [b_aux b_syms b_glob b_asyms b_aglob fst snd] in *.
  assert (Z3 : aux = false -> asy = 0) by assumption. assert (Z4 : aux = true -> 0 < agl) by assumption.
  split; [|split; [|split]].
  - intros n H. destruct aux; cbn [negb orb].
    + destruct ((0 <? sy) && (0 <? asy)) eqn:E; destruct (n <? gl) eqn:E1; cbn [fst snd]; try lia;
      (destruct (0 <? sy) eqn:E4); (match goal with |- context [n <? gl + agl - ?k] => destruct (n <? gl + agl - k) eqn:E2 end); cbn [fst snd]; try lia;
      (match goal with |- context [n <? sy + agl - ?k] => destruct (n <? sy + agl - k) eqn:E3 end); cbn [fst snd]; lia.
    + cbn [fst snd]. specialize (Z3 eq_refl). destruct ((0 <? sy) && (0 <? asy)) eqn:E; lia.
  - intros n n' H H'. destruct aux; cbn [negb orb]; [|intro E; injection E as E; exact E].
    set (k := if (0 <? sy) && (0 <? asy) then 1 else 0) in *. assert (0 <= k <= 1) by (subst k; destruct ((0 <? sy) && (0 <? asy)); lia). clearbody k. specialize (Z4 eq_refl).
    destruct (n <? gl) eqn:A1, (n' <? gl) eqn:B1; [| | |];
    try (destruct (n <? gl + agl - k) eqn:A2); try (destruct (n <? sy + agl - k) eqn:A3); try (destruct (n' <? gl + agl - k) eqn:B2); try (destruct (n' <? sy + agl - k) eqn:B3);
    intro E; try discriminate E; injection E as E; lia.
  - intros [m x] P. cbn [fst snd] in P. destruct aux; cbn [negb orb].
    + specialize (Z4 eq_refl). assert (A0 : (0 <? asy) = true) by lia. rewrite A0, andb_true_r. set (k := if 0 <? sy then 1 else 0) in *. assert (0 <= k <= 1) by (subst k; destruct (0 <? sy); lia). clearbody k.
      destruct m.
      * destruct (Z_lt_dec x gl).
        -- exists x. split; [lia|]. replace (x <? gl) with true by lia. reflexivity.
        -- exists (x + agl - k). split; [lia|]. replace (x + agl - k <? gl) with false by lia. replace (x + agl - k <? gl + agl - k) with false by lia. replace (x + agl - k <? sy + agl - k) with true by lia. f_equal. lia.
      * destruct (Z_lt_dec x agl).
        -- exists (x + gl - k). split; [lia|]. replace (x + gl - k <? gl) with false by lia. replace (x + gl - k <? gl + agl - k) with true by lia. f_equal. lia.
        -- exists (x + sy - k). split; [lia|]. replace (x + sy - k <? gl) with false by lia. replace (x + sy - k <? gl + agl - k) with false by lia. replace (x + sy - k <? sy + agl - k) with false by lia. f_equal. lia.
    + specialize (Z3 eq_refl). destruct m.
      * exists x. split; [|reflexivity]. destruct ((0 <? sy) && (0 <? asy)) eqn:E; lia.
      * destruct (0 <? sy); lia.
  - intros n H. destruct aux; cbn [negb orb fst snd].
    + specialize (Z4 eq_refl). set (k := if (0 <? sy) && (0 <? asy) then 1 else 0) in *. assert (0 <= k <= 1) by (subst k; destruct ((0 <? sy) && (0 <? asy)); lia). clearbody k.
      destruct (n <? gl) eqn:A1; cbn [fst snd]; [lia|]. destruct (n <? gl + agl - k) eqn:A2; cbn [fst snd]; [lia|]. destruct (n <? sy + agl - k) eqn:A3; cbn [fst snd]; lia.
    + specialize (Z3 eq_refl). destruct ((0 <? sy) && (0 <? asy)) eqn:E; lia.
Qed.
(* C55: if the auxiliary table claims to have no local symbol, not even the null one, the first global symbol of the main table has no number *)
Theorem C55_numbers_refuted : exists b p, 0 <= b_glob b <= b_syms b /\ 0 <= b_aglob b <= b_asyms b /\ b_aux b = true /\ numbered b p /\ forall n, 0 <= n < symtab_count b -> sym_pos b n <> p.
Proof.
  exists (Tb true 5 3 4 0), (true, 3). unfold numbered, symtab_count, sym_pos, skip_zero. repeat (split; [cbn; lia || reflexivity|]).
  change (forall n, 0 <= n < 8 -> (if n <? 3 then (true, n) else if n <? 2 then (false, n - 3 + 1) else if n <? 4 then (true, n - 0 + 1) else (false, n - 5 + 1)) <> (true, 3)).
  intros n H. destruct (n <? 3) eqn:A; [intro E; injection E; lia|]. destruct (n <? 2) eqn:B; [discriminate|]. destruct (n <? 4) eqn:C; [intro E; injection E; lia|discriminate].
Qed.
Example C55_nonvacuous : let b := Tb true 5 3 4 2 in tabs_ok b /\ map (sym_pos b) [0; 1; 2; 3; 4; 5; 6; 7] = [(true, 0); (true, 1); (true, 2); (false, 1); (true, 3); (true, 4); (false, 2); (false, 3)].
Proof. split; [unfold tabs_ok; cbn; repeat split; try lia; discriminate|reflexivity]. Qed.
Print Assumptions C55_numbers.
Print Assumptions C55_numbers_refuted.
