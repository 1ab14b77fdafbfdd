From Verif Require Import Base SymModel SymSpec.
From Coq Require Import ZifyBool.

Definition tries (i : minfo) (addr : Z) (e : option msym) : list (msym * Z * bool) :=
  match e with
  | None => []
  | Some m =>
    if negb (match y_name m with [] => true | _ => false end) && negb (y_shn m =? SHN_UNDEF) && (y_val m <=? addr) && negb (y_type m =? 3) && negb (y_type m =? 4) && negb (y_type m =? 6) then
      (m, y_val m, y_res m) ::
      (if y_res m && negb (i_rel i) then
        let a := u64 (y_st m + i_bias i (y_elf m)) in
        if negb (y_val m =? a) && (a <=? addr) then [(m, a, false)] else []
      else [])
    else []
  end.
Definition step (i : minfo) (addr : Z) (s : sst) (x : msym * Z * bool) : sst := try_sym i addr s (fst (fst x)) (snd (fst x)) (snd x).

Lemma search_tries i addr l : forall s, search i addr s l = fold_left (step i addr) (flat_map (tries i addr) l) s.
Proof.
  unfold search. induction l as [|e l IH]; intro s; [reflexivity|].
  cbn [fold_left flat_map]. rewrite fold_left_app, IH. f_equal.
  destruct e as [m|]; [|reflexivity]. unfold try_entry, tries, step. cbv zeta.
  repeat match goal with |- context [if ?b then _ else _] => destruct b end; reflexivity.
Qed.

Definition file_of (i : minfo) (m : msym) (r : bool) : Z := if r then i_main i else y_elf m.
Lemma tries_in i addr t m v r : In (m, v, r) (flat_map (tries i addr) t) -> considered i addr t m v (file_of i m r).
Proof.
  intro H. apply in_flat_map in H. destruct H as (e & HE & H). destruct e as [x|]; [|destruct H].
  cbn [tries] in H.
  destruct (negb (match y_name x with [] => true | _ => false end) && negb (y_shn x =? SHN_UNDEF) && (y_val x <=? addr) && negb (y_type x =? 3) && negb (y_type x =? 4) && negb (y_type x =? 6)) eqn:E; [|destruct H].
  repeat (apply andb_prop in E; destruct E as [E ?]).
  assert (EL : eligible addr x).
  { unfold eligible. split; [destruct (y_name x); [discriminate|discriminate]|]. split; [unfold SHN_UNDEF in *; lia|]. split; [lia|]. cbn [In]. lia. }
  destruct H as [H|H].
  - assert (x = m /\ v = y_val m /\ r = y_res m) as (-> & -> & ->) by (split; [congruence|split; congruence]).
    split; [assumption|]. split; [assumption|]. left. split; reflexivity.
  - destruct (y_res x && negb (i_rel i)) eqn:E2; [|destruct H]. cbv zeta in H.
    destruct (negb (y_val x =? u64 (y_st x + i_bias i (y_elf x))) && (u64 (y_st x + i_bias i (y_elf x)) <=? addr)) eqn:E3; [|destruct H].
    destruct H as [H|[]].
    assert (x = m /\ v = u64 (y_st m + i_bias i (y_elf m)) /\ r = false) as (-> & -> & ->) by (split; [congruence|split; congruence]).
    apply andb_prop in E2. apply andb_prop in E3. split; [assumption|]. split; [assumption|]. right.
    split; [apply E2|]. split; [destruct (i_rel i); [destruct E2; discriminate|reflexivity]|]. split; [reflexivity|].
    split; [lia|]. split; [lia|reflexivity].
Qed.
Lemma in_tries i addr t m v f : considered i addr t m v f -> exists r, In (m, v, r) (flat_map (tries i addr) t) /\ f = file_of i m r.
Proof.
  intros (HI & (E1 & E2 & E3 & E4) & H).
  assert (E : negb (match y_name m with [] => true | _ => false end) && negb (y_shn m =? SHN_UNDEF) && (y_val m <=? addr) && negb (y_type m =? 3) && negb (y_type m =? 4) && negb (y_type m =? 6) = true).
  { cbn [In] in E4. unfold SHN_UNDEF. destruct (y_name m); [congruence|]. cbn. lia. }
  destruct H as [[-> ->]|(R & REL & -> & LE & NE & ->)].
  - exists (y_res m). split; [|reflexivity]. apply in_flat_map. exists (Some m). split; [assumption|]. cbn [tries]. rewrite E. left. reflexivity.
  - exists false. split; [|reflexivity]. apply in_flat_map. exists (Some m). split; [assumption|]. cbn [tries]. rewrite E, R, REL. cbn [andb negb]. cbv zeta.
    replace (negb (y_val m =? u64 (y_st m + i_bias i (y_elf m))) && (u64 (y_st m + i_bias i (y_elf m)) <=? addr)) with true; [right; left; reflexivity|].
    symmetry. unfold u64. lia.
Qed.

(* the section cache *)
Definition cache_ok (i : minfo) (addr : Z) (s : sst) : Prop :=
  if i_adj i then k_ndx s = 0 \/ exists e, k_elf s = Some e /\ k_ndx s = find_scn 1 (i_secs i e) (u64 (addr - i_bias i e))
  else k_ndx s = 0 \/ k_ndx s = i_find i addr.

Lemma find_scn_bound l a : forall k, find_scn k l a = SHN_ABS \/ k <= find_scn k l a.
Proof. induction l as [|[s n] l IH]; intro k; cbn [find_scn]; [left; reflexivity|]. destruct ((s <=? a) && (a <? u64 (s + n))); [right; lia|]. destruct (IH (k + 1)); [left|right]; lia. Qed.
Lemma find_scn_in l a : forall k x, x < SHN_LORESERVE -> find_scn k l a = x <->
  exists p s n q, l = p ++ (s, n) :: q /\ x = zlen p + k /\ s <= a < (s + n) mod two64 /\ Forall (fun x => ~ (fst x <= a < (fst x + snd x) mod two64)) p.
Proof.
  induction l as [|[s n] l IH]; intros k x HX; cbn [find_scn].
  - split; [intro H; unfold SHN_ABS, SHN_LORESERVE in *; lia|]. intros (p & s & n & q & E & _). destruct p; discriminate E.
  - destruct ((s <=? a) && (a <? u64 (s + n))) eqn:E.
    + unfold u64 in E. split.
      * intros <-. exists [], s, n, l. split; [reflexivity|]. split; [cbn; lia|]. split; [lia|constructor].
      * intros (p & s' & n' & q & EQ & -> & IN & F). destruct p as [|y p]; [cbn; lia|].
        injection EQ as EQ1 EQ2; subst y l; inversion F as [|? ? NB F']; subst. cbn [fst snd] in NB. lia.
    + unfold u64 in E. rewrite (IH (k + 1) x HX). split.
      * intros (p & s' & n' & q & -> & -> & IN & F). exists ((s, n) :: p), s', n', q. split; [reflexivity|]. split; [rewrite zlen_cons; lia|]. split; [assumption|].
        constructor; [cbn [fst snd]; lia|assumption].
      * intros (p & s' & n' & q & EQ & -> & IN & F). destruct p as [|y p].
        { injection EQ as -> -> ->. lia. }
        injection EQ as EQ1 EQ2; subst y l; inversion F as [|? ? NB F']; subst. exists p, s', n', q. split; [reflexivity|]. split; [rewrite zlen_cons; lia|]. split; assumption.
Qed.

Lemma same_section_ok i addr s v f m : cache_ok i addr s -> y_size m = 0 ->
  (fst (same_section i addr s v f (y_ndx m)) = true <-> label i addr m v f) /\
  let s' := snd (same_section i addr s v f (y_ndx m)) in
  cache_ok i addr s' /\ k_best s' = k_best s /\ k_less s' = k_less s /\ k_min s' = k_min s.
Proof.
  intros C Z0. unfold same_section, label, cache_ok in *.
  destruct (SHN_LORESERVE <=? y_ndx m) eqn:EL; [cbn [fst snd]; split; [lia|auto]|].
  destruct (i_adj i); cbn [negb].
  - destruct ((k_ndx s =? SHN_UNDEF) || negb (match k_elf s with Some e => e =? f | None => false end)) eqn:EC; cbv zeta; cbn [fst snd k_ndx k_elf k_best k_less k_min].
    + split.
      * rewrite Z.eqb_refl, andb_true_r. split.
        -- intro E. split; [assumption|]. apply (proj1 (find_scn_in _ _ 1 (y_ndx m) ltac:(lia))). unfold u64 in *. lia.
        -- intros [_ E]. apply (proj2 (find_scn_in _ _ 1 (y_ndx m) ltac:(lia))) in E. unfold u64 in *. lia.
      * split; [|auto]. right. exists f. split; reflexivity.
    + destruct C as [C|(e & Ee & C)]; [unfold SHN_UNDEF in *; lia|]. rewrite Ee in *. assert (e = f) by lia. subst e. split.
      * rewrite Z.eqb_refl, andb_true_r. rewrite C. split.
        -- intro E. split; [assumption|]. apply (proj1 (find_scn_in _ _ 1 (y_ndx m) ltac:(lia))). unfold u64 in *. lia.
        -- intros [_ E]. apply (proj2 (find_scn_in _ _ 1 (y_ndx m) ltac:(lia))) in E. unfold u64 in *. lia.
      * split; [|auto]. right. exists f. split; [first [assumption|reflexivity|congruence]|assumption].
  - destruct (k_ndx s =? SHN_UNDEF) eqn:EC; cbv zeta; cbn [fst snd k_ndx k_elf k_best k_less k_min].
    + split; [lia|]. split; [right; reflexivity|auto].
    + unfold SHN_UNDEF in EC. split; [lia|]. split; [right; lia|auto].
Qed.

(* what holds after the tries T *)
Definition hold1 (addr : Z) (x : msym * Z * bool) : Prop := holds addr (fst (fst x)) (snd (fst x)).
Definition label1 (i : minfo) (addr : Z) (x : msym * Z * bool) : Prop := label i addr (fst (fst x)) (snd (fst x)) (file_of i (fst (fst x)) (snd x)).
Definition end1 (x : msym * Z * bool) : Z := u64 (snd (fst x) + y_size (fst (fst x))).
Definition ok1 (addr : Z) (x : msym * Z * bool) : Prop := 0 <= snd (fst x) <= addr /\ is_u64 (y_size (fst (fst x))) /\ is_u64 addr.
Record inv (i : minfo) (addr : Z) (T : list (msym * Z * bool)) (s : sst) : Prop := {
  inv_cache : cache_ok i addr s;
  inv_min : Forall (fun x => end1 x <= k_min s) T;
  inv_min0 : k_min s = 0 \/ exists x, In x T /\ k_min s = end1 x;
  inv_none : k_best s = None -> Forall (fun x => ~ hold1 addr x) T;
  inv_some : forall m v, k_best s = Some (m, v) -> exists r, In (m, v, r) T /\ holds addr m v;
  inv_less : forall m v, k_less s = Some (m, v) -> exists r, In (m, v, r) T /\ label i addr m v (file_of i m r);
  inv_lab : k_best s = None -> forall m v r, In (m, v, r) T -> label i addr m v (file_of i m r) -> v = k_min s -> exists m', k_less s = Some (m', v)
}.

Lemma strength_eq m : binding_value m = strength m.
Proof.
  unfold binding_value, strength. destruct (y_bind m) as [|[p|[p|p|]|]|p]; reflexivity.
Qed.

(* what one try does *)
Lemma step_min i addr s x : k_min (step i addr s x) = Z.max (k_min s) (end1 x).
Proof.
  destruct x as [[m v] r]. unfold step, try_sym, end1. cbn [fst snd]. cbv zeta.
  set (s1 := if k_min s <? u64 (v + y_size m) then _ else _).
  assert (M : k_min s1 = Z.max (k_min s) (u64 (v + y_size m))) by (subst s1; destruct (k_min s <? u64 (v + y_size m)) eqn:E; cbn [k_min]; lia).
  clearbody s1. rewrite <- M.
  destruct ((y_size m =? 0) || (u64 (addr - v) <? y_size m)); [|reflexivity].
  destruct (k_best s1) as [[b w]|] eqn:EB.
  - destruct ((w <? v) || (binding_value b <? binding_value m)); [destruct (y_size m =? 0); reflexivity|].
    destruct (negb (y_size m =? 0) && (w =? v) && (((y_size m <? y_size b) && (binding_value b <=? binding_value m)) || ((y_size m <=? y_size b) && (binding_value b <? binding_value m)))); reflexivity.
  - destruct (y_size m =? 0); cbn [negb]; [|reflexivity]. destruct (k_min s1 <=? v); [|reflexivity].
    unfold same_section. cbv zeta.
    destruct (SHN_LORESERVE <=? y_ndx m). { destruct (v =? addr); reflexivity. }
    destruct (i_adj i); cbn [negb].
    + destruct ((k_ndx s1 =? SHN_UNDEF) || _); cbv zeta; match goal with |- context [if ?c then _ else _] => destruct c end; reflexivity.
    + destruct (k_ndx s1 =? SHN_UNDEF); match goal with |- context [if ?c then _ else _] => destruct c end; reflexivity.
Qed.

Lemma step_best i addr s x : ok1 addr x ->
  k_best (step i addr s x) = k_best s /\ (~ hold1 addr x \/ exists b w, k_best s = Some (b, w) /\ ~ (w < snd (fst x) \/ strength b < strength (fst (fst x)) \/ w = snd (fst x) /\ strength b = strength (fst (fst x)) /\ y_size (fst (fst x)) < y_size b)) \/
  k_best (step i addr s x) = Some (fst x) /\ hold1 addr x /\
    match k_best s with None => True | Some (b, w) => w < snd (fst x) \/ strength b < strength (fst (fst x)) \/ w = snd (fst x) /\ strength b = strength (fst (fst x)) /\ y_size (fst (fst x)) < y_size b end.
Proof.
  destruct x as [[m v] r]. unfold ok1, hold1, holds, step, try_sym. cbn [fst snd]. cbv zeta. intros (B & SZ & AD).
  rewrite <- !strength_eq.
  set (s1 := if k_min s <? u64 (v + y_size m) then _ else _).
  assert (M : k_best s1 = k_best s) by (subst s1; destruct (k_min s <? u64 (v + y_size m)); reflexivity).
  clearbody s1. rewrite <- M.
  assert (D : u64 (addr - v) = addr - v) by (unfold u64, is_u64 in *; apply Z.mod_small; lia). rewrite D.
  unfold is_u64 in SZ.
  destruct ((y_size m =? 0) || (addr - v <? y_size m)) eqn:E0; [|left; split; [reflexivity|left; lia]].
  destruct (k_best s1) as [[b w]|] eqn:EB.
  - rewrite <- (strength_eq b). destruct ((w <? v) || (binding_value b <? binding_value m)) eqn:EC.
    + destruct (y_size m =? 0) eqn:EZ; cbn [negb k_best].
      * left. split; [assumption|]. left. lia.
      * right. split; [reflexivity|]. split; [lia|]. lia.
    + destruct (negb (y_size m =? 0) && (w =? v) && (((y_size m <? y_size b) && (binding_value b <=? binding_value m)) || ((y_size m <=? y_size b) && (binding_value b <? binding_value m)))) eqn:ED; cbn [k_best].
      * right. split; [reflexivity|]. split; [lia|]. lia.
      * left. split; [assumption|]. destruct (y_size m =? 0) eqn:EZ; [left; lia|]. right. exists b, w. rewrite <- (strength_eq b). split; [reflexivity|]. lia.
  - destruct (y_size m =? 0) eqn:EZ; cbn [negb k_best]; [|right; split; [reflexivity|split; [lia|exact Logic.I]]].
    left. split; [|left; lia]. destruct (k_min s1 <=? v); [|assumption].
    unfold same_section. cbv zeta.
    destruct (SHN_LORESERVE <=? y_ndx m). { destruct (v =? addr); cbn [k_best]; assumption. }
    destruct (i_adj i); cbn [negb].
    + destruct ((k_ndx s1 =? SHN_UNDEF) || _); cbv zeta; match goal with |- context [if ?c then _ else _] => destruct c end; cbn [k_best]; assumption.
    + destruct (k_ndx s1 =? SHN_UNDEF); match goal with |- context [if ?c then _ else _] => destruct c end; cbn [k_best]; assumption.
Qed.

Lemma step_less i addr s x : ok1 addr x -> cache_ok i addr s ->
  cache_ok i addr (step i addr s x) /\
  (k_less (step i addr s x) = Some (fst x) /\ label1 i addr x /\ Z.max (k_min s) (end1 x) <= snd (fst x) \/
   k_less (step i addr s x) = k_less s /\ (k_best s <> None \/ ~ label1 i addr x \/ ~ Z.max (k_min s) (end1 x) <= snd (fst x))).
Proof.
  destruct x as [[m v] r]. unfold ok1, label1, end1, step, try_sym. cbn [fst snd]. cbv zeta. intros (B & SZ & AD) C.
  set (s1 := if k_min s <? u64 (v + y_size m) then _ else _).
  assert (M : k_best s1 = k_best s /\ k_less s1 = k_less s /\ k_min s1 = Z.max (k_min s) (u64 (v + y_size m)) /\ cache_ok i addr s1).
  { subst s1; destruct (k_min s <? u64 (v + y_size m)) eqn:E; cbn [k_best k_less k_min]; (split; [reflexivity|split; [reflexivity|split; [lia|exact C]]]). }
  clearbody s1. destruct M as (M1 & M2 & M3 & M4). rewrite <- M1, <- M2, <- M3.
  assert (SM : y_size m <> 0 -> ~ label i addr m v (file_of i m r)) by (intros N [E _]; congruence).
  destruct ((y_size m =? 0) || (u64 (addr - v) <? y_size m)) eqn:E0; [|split; [assumption|right; split; [reflexivity|right; left; apply SM; lia]]].
  destruct (k_best s1) as [[b w]|] eqn:EB.
  - assert (K : forall s', cache_ok i addr s' -> k_less s' = k_less s1 -> cache_ok i addr s' /\ (k_less s' = Some (m, v) /\ label i addr m v (file_of i m r) /\ k_min s1 <= v \/ k_less s' = k_less s1 /\ (Some (b, w) <> None \/ ~ label i addr m v (file_of i m r) \/ ~ k_min s1 <= v))).
    { intros s' H1 H2. split; [assumption|]. right. split; [assumption|left; discriminate]. }
    destruct ((w <? v) || (binding_value b <? binding_value m)); [destruct (y_size m =? 0); cbn [negb]; apply K; auto|].
    destruct (negb (y_size m =? 0) && (w =? v) && (((y_size m <? y_size b) && (binding_value b <=? binding_value m)) || ((y_size m <=? y_size b) && (binding_value b <? binding_value m)))); apply K; auto.
  - destruct (y_size m =? 0) eqn:EZ; cbn [negb k_less].
    + destruct (k_min s1 <=? v) eqn:EM.
      * pose proof (same_section_ok i addr s1 v (file_of i m r) m M4 ltac:(lia)) as (S1 & S2).
        change (if r then i_main i else y_elf m) with (file_of i m r).
        destruct (same_section i addr s1 v (file_of i m r) (y_ndx m)) as [same s2]. cbn [fst snd] in *. destruct S2 as (S2 & S3 & S4 & S5).
        destruct same.
        -- split; [exact S2|]. left. cbn [k_less]. split; [reflexivity|]. split; [apply S1; reflexivity|lia].
        -- split; [exact S2|]. right. split; [assumption|]. right. left. intro L. apply S1 in L. discriminate L.
      * split; [assumption|]. right. split; [reflexivity|]. right. right. lia.
    + split; [assumption|]. right. split; [reflexivity|]. right. left. apply SM. lia.
Qed.

Lemma inv_step i addr T s x : inv i addr T s -> ok1 addr x -> inv i addr (T ++ [x]) (step i addr s x).
Proof.
  intros [C M M0 N SO LE LA] K.
  pose proof (step_min i addr s x) as SM.
  pose proof (step_best i addr s x K) as SB.
  pose proof (step_less i addr s x K C) as [SC SL].
  constructor.
  - exact SC.
  - apply Forall_app. split; [|constructor; [lia|constructor]]. eapply Forall_impl; [|exact M]. intros a H. cbn beta in *. lia.
  - destruct (Z.max_spec (k_min s) (end1 x)) as [[? E]|[? E]].
    + right. exists x. split; [apply in_app_iff; right; left; reflexivity|lia].
    + destruct M0 as [M0|(y & IY & M0)]; [left; lia|right; exists y; split; [apply in_app_iff; left; assumption|lia]].
  - intro E. destruct SB as [(SB & W)|(SB & _)]; [|congruence]. rewrite SB in E. apply Forall_app. split; [apply N; assumption|].
    constructor; [|constructor]. destruct W as [W|(b & w & W & _)]; [assumption|congruence].
  - intros m v E. destruct SB as [(SB & _)|(SB & H & _)].
    + rewrite SB in E. destruct (SO m v E) as (r & I1 & I2). exists r. split; [apply in_app_iff; left; assumption|assumption].
    + rewrite SB in E. destruct x as [[m' v'] r]. cbn [fst] in E. injection E as -> ->. exists r. split; [apply in_app_iff; right; left; reflexivity|assumption].
  - intros m v E. destruct SL as [(SL & L & _)|(SL & _)].
    + rewrite SL in E. destruct x as [[m' v'] r]. cbn [fst] in E. injection E as -> ->. exists r. split; [apply in_app_iff; right; left; reflexivity|assumption].
    + rewrite SL in E. destruct (LE m v E) as (r & I1 & I2). exists r. split; [apply in_app_iff; left; assumption|assumption].
  - intros E m v r HI L EV. destruct SB as [(SB & _)|(SB & _)]; [|congruence]. rewrite SB in E.
    apply in_app_iff in HI. destruct HI as [HI|[HI|[]]].
    + assert (EE : end1 (m, v, r) <= k_min s) by (apply (proj1 (Forall_forall _ _) M (m, v, r) HI)).
      destruct L as [L0 L1]. unfold end1 in EE. cbn [fst snd] in EE. rewrite L0, Z.add_0_r in EE.
      assert (V : u64 v = v).
      { unfold u64. apply Z.mod_small. unfold ok1, is_u64, end1, u64 in *.
        assert (0 <= k_min s < two64).
        { destruct M0 as [M0|(y & IY & M0)]; [lia|rewrite M0; unfold end1, u64; apply Z.mod_pos_bound; lia]. }
        assert (0 <= end1 x < two64) by (unfold end1, u64; apply Z.mod_pos_bound; lia). unfold end1, u64 in *. lia. }
      destruct SL as [(SL & L2 & GE)|(SL & _)].
      * exists (fst (fst x)). rewrite SL. destruct x as [[m' v'] r']. cbn [fst snd] in *. f_equal. f_equal.
        destruct L2 as [L2 _]. cbn [fst snd] in L2. assert (end1 (m', v', r') = v').
        { unfold end1. cbn [fst snd]. rewrite L2, Z.add_0_r. unfold u64, ok1, is_u64 in *. cbn [fst snd] in K. apply Z.mod_small. lia. }
        lia.
      * rewrite SL. apply (LA E m v r HI); [split; assumption|]. lia.
    + subst x. destruct SL as [(SL & _)|(SL & [W|[W|W]])].
      * rewrite SL. exists m. reflexivity.
      * congruence.
      * unfold label1 in W. cbn [fst snd] in W. contradiction.
      * cbn [fst snd] in W. lia.
Qed.
Lemma inv_fold i addr T' : forall T s, inv i addr T s -> Forall (ok1 addr) T' -> inv i addr (T ++ T') (fold_left (step i addr) T' s).
Proof.
  induction T' as [|x T' IH]; intros T s H F; [rewrite app_nil_r; exact H|].
  inversion F; subst. cbn [fold_left]. replace (T ++ x :: T') with ((T ++ [x]) ++ T') by (rewrite <- app_assoc; reflexivity).
  apply IH; [apply inv_step; assumption|assumption].
Qed.
Lemma inv_init i addr : inv i addr [] (Sst SHN_UNDEF None None None 0).
Proof.
  constructor; cbn [k_best k_less k_min]; try (intros; discriminate); [|constructor|left; reflexivity|constructor|intros _ m v r []].
  unfold cache_ok. destruct (i_adj i); left; reflexivity.
Qed.

(* the best of a pass *)
Definition bef (x y : msym * Z * bool) : Prop := before (fst (fst x)) (snd (fst x)) (fst (fst y)) (snd (fst y)).
Definition lev (x y : msym * Z * bool) : Prop := level (fst (fst x)) (snd (fst x)) (fst (fst y)) (snd (fst y)).
Lemma best_fold i addr T' : forall T s b, k_best s = Some (fst b) -> Forall (ok1 addr) T' ->
  (exists A B, T = A ++ b :: B /\ Forall (fun y => hold1 addr y -> bef b y) A /\ Forall (fun y => hold1 addr y -> bef b y \/ lev b y) B) -> hold1 addr b ->
  (forall x y, In x (T ++ T') -> In y (T ++ T') -> hold1 addr x -> hold1 addr y -> snd (fst x) < snd (fst y) -> strength (fst (fst x)) <= strength (fst (fst y))) ->
  exists b' A B, T ++ T' = A ++ b' :: B /\ k_best (fold_left (step i addr) T' s) = Some (fst b') /\ hold1 addr b' /\
    Forall (fun y => hold1 addr y -> bef b' y) A /\ Forall (fun y => hold1 addr y -> bef b' y \/ lev b' y) B.
Proof.
  induction T' as [|x T' IH]; intros T s b EB F (A & B & ET & FA & FB) HB AG.
  - cbn [fold_left]. rewrite app_nil_r. exists b, A, B. auto.
  - inversion F as [|? ? K F']; subst x0 l. cbn [fold_left].
    assert (INb : In b (T ++ x :: T')) by (rewrite ET; apply in_app_iff; left; apply in_app_iff; right; left; reflexivity).
    assert (INx : In x (T ++ x :: T')) by (apply in_app_iff; right; left; reflexivity).
    replace (T ++ x :: T') with ((T ++ [x]) ++ T') in * by (rewrite <- app_assoc; reflexivity).
    destruct (step_best i addr s x K) as [(SB & W)|(SB & H & W)].
    + apply (IH (T ++ [x]) (step i addr s x) b); [congruence|assumption| |assumption|assumption].
      exists A, (B ++ [x]). split; [rewrite ET, <- app_assoc; reflexivity|]. split; [assumption|]. apply Forall_app. split; [assumption|].
      constructor; [|constructor]. intro HX. destruct W as [W|(b' & w' & E & W)]; [contradiction|].
      rewrite EB in E. destruct b as [[bm bv] br]. cbn [fst] in E. injection E as -> ->. unfold bef, lev, before, level. cbn [fst snd] in *.
      pose proof (AG _ _ INx INb HX HB) as G. pose proof (AG _ _ INb INx HB HX) as G'. cbn [fst snd] in G, G'. lia.
    + apply (IH (T ++ [x]) (step i addr s x) x); [congruence|assumption| |assumption|assumption].
      exists T, []. split; [reflexivity|]. split; [|constructor].
      rewrite EB in W. destruct b as [[bm bv] br]. cbn [fst snd] in W.
      pose proof (AG _ _ INb INx HB H) as G. pose proof (AG _ _ INx INb H HB) as G'. cbn [fst snd] in G, G'.
      assert (BX : bef x (bm, bv, br)) by (unfold bef, before; cbn [fst snd]; lia).
      rewrite ET. apply Forall_app. unfold bef, lev, before, level in *. cbn [fst snd] in *. split.
      * eapply Forall_impl; [|exact FA]. cbn beta. intros y HY HH. specialize (HY HH). lia.
      * constructor; [intros _; cbn [fst snd]; lia|]. eapply Forall_impl; [|exact FB]. cbn beta. intros y HY HH. specialize (HY HH). lia.
Qed.
Lemma none_fold i addr T : forall s, k_best s = None -> Forall (ok1 addr) T ->
  k_best (fold_left (step i addr) T s) = None /\ Forall (fun x => ~ hold1 addr x) T \/
  exists A b B, T = A ++ b :: B /\ k_best (fold_left (step i addr) (A ++ [b]) s) = Some (fst b) /\ hold1 addr b /\ Forall (fun x => ~ hold1 addr x) A.
Proof.
  induction T as [|x T IH]; intros s N F; [left; split; [exact N|constructor]|].
  inversion F as [|? ? K F']; subst. cbn [fold_left].
  destruct (step_best i addr s x K) as [(SB & W)|(SB & H & W)].
  - assert (NX : ~ hold1 addr x) by (destruct W as [W|(b & w & W & _)]; [assumption|congruence]).
    destruct (IH (step i addr s x) ltac:(congruence) F') as [[E NF]|(A & b & B & -> & E & HB & NF)].
    + left. split; [assumption|constructor; assumption].
    + right. exists (x :: A), b, B. cbn [app fold_left]. split; [reflexivity|]. split; [assumption|]. split; [assumption|]. constructor; assumption.
  - right. exists [], x, T. cbn [app fold_left]. split; [reflexivity|]. split; [assumption|]. split; [assumption|constructor].
Qed.
(* a pass that starts without a sized symbol *)
Lemma pass_best i addr T s : k_best s = None -> Forall (ok1 addr) T ->
  (forall x y, In x T -> In y T -> hold1 addr x -> hold1 addr y -> snd (fst x) < snd (fst y) -> strength (fst (fst x)) <= strength (fst (fst y))) ->
  k_best (fold_left (step i addr) T s) = None /\ Forall (fun x => ~ hold1 addr x) T \/
  exists b A B, T = A ++ b :: B /\ k_best (fold_left (step i addr) T s) = Some (fst b) /\ hold1 addr b /\
    Forall (fun y => hold1 addr y -> bef b y) A /\ Forall (fun y => hold1 addr y -> bef b y \/ lev b y) B.
Proof.
  intros N F AG. destruct (none_fold i addr T s N F) as [H|(A & b & B & -> & E & HB & NF)]; [left; assumption|]. right.
  replace (A ++ b :: B) with ((A ++ [b]) ++ B) in * by (rewrite <- app_assoc; reflexivity).
  apply Forall_app in F. rewrite fold_left_app.
  destruct (best_fold i addr B (A ++ [b]) _ b E (proj2 F)) as (b' & A' & B' & E1 & E2); [|assumption|assumption|].
  - exists A, []. split; [reflexivity|]. split; [|constructor]. eapply Forall_impl; [|exact NF]. cbn beta. intros. contradiction.
  - exists b', A', B'. split; [assumption|]. assumption.
Qed.
