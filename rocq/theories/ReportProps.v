(* The properties of reporting modules: libdwfl/dwfl_module.c. *)
From Coq Require Import Permutation.
From Verif Require Import Base ReportModel ReportSpec ReportProof.

Definition ka : key := ([97], 4096, 8192).
Definition kb : key := ([98], 8192, 12288).
Definition kc : key := ([99], 4096, 8192).
Definition kd : key := ([97], 4096, 8193).
Definition hist : list call := [Begin; Report ka; Report kb; Report ka; EndReport None; Begin; Report kc; Report kb; EndReport (Some (fun _ => 0))].

Lemma modules_keys : forall s, map fst (modules s) = keys (t_mods s).
Proof. intros s. unfold modules. rewrite map_map. reflexivity. Qed.
Lemma modules_ids : forall s, map snd (modules s) = ids (t_mods s).
Proof. intros s. unfold modules. rewrite map_map. reflexivity. Qed.

(* whatever has been called: a name with its addresses is there once, no handle is there that was
   freed, and none is freed twice *)
Theorem C80_always : forall cs, let s := doall cs empty in
  NoDup (map fst (modules s)) /\ NoDup (map snd (modules s)) /\ NoDup (t_freed s) /\ (forall h, In h (map snd (modules s)) -> ~ In h (t_freed s)).
Proof.
  intros cs. cbn zeta. destruct (good_all cs empty good_empty) as [A B _]. rewrite modules_keys, modules_ids. split; [exact A|]. split; [exact (nodup_l _ _ _ B)|].
  assert (D : forall (l l' : list Z), NoDup (l ++ l') -> NoDup l' /\ forall h, In h l -> ~ In h l').
  { induction l as [|x l IH]; intros l' H; [split; [exact H|intros h []]|]. cbn in H. inversion H as [|? ? N H']; subst. destruct (IH l' H') as (P & Q). split; [exact P|]. intros h [<-|I]; [intros J; apply N, in_or_app; right; exact J|exact (Q h I)]. }
  exact (D _ _ B).
Qed.
Print Assumptions C80_always.
Example C80_always_nonvacuous : modules (doall hist empty) = [(kc, 3); (kb, 2)] /\ t_freed (doall hist empty) = [1].
Proof. vm_compute. split; reflexivity. Qed.

(* a report gives the handle of the module of this name and these addresses: the one there is,
   and a new one only when there is none; the other modules stay *)
Theorem C80_report : forall cs k, let s := doall cs empty in let '(s', h) := report_module k s in
  In (k, h) (modules s') /\ t_freed s' = t_freed s /\
  ((In (k, h) (modules s) /\ Permutation (modules s') (modules s)) \/
   (~ In k (map fst (modules s)) /\ ~ In h (map snd (modules s)) /\ ~ In h (t_freed s) /\ Permutation (modules s') ((k, h) :: modules s))).
Proof.
  intros cs k. cbn zeta. pose proof (good_all cs empty good_empty) as G. set (s := doall cs empty) in *. clearbody s. destruct (report_ok k s) as [(a & b & m & l2 & E & F & K & N & _ & R)|(a & b & E & F & N & _ & R)]; rewrite R; unfold modules; cbn [t_mods t_freed].
  - split; [rewrite map_app; apply in_or_app; right; left; cbn; rewrite K; reflexivity|]. split; [reflexivity|]. left. rewrite E. split; [rewrite !map_app; apply in_or_app; right; apply in_or_app; right; left; rewrite K; reflexivity|].
    rewrite !map_app. apply Permutation_app_head. cbn [map live_md d_key d_id]. rewrite map_app. apply Permutation_middle.
  - split; [rewrite map_app; apply in_or_app; right; left; reflexivity|]. split; [reflexivity|]. right. fold (modules s). rewrite modules_keys, modules_ids. split; [rewrite E; exact N|]. destruct G as [_ _ C].
    split; [intros I; specialize (C (t_next s) (in_or_app _ _ _ (or_introl I))); lia|]. split; [intros I; specialize (C (t_next s) (in_or_app _ _ _ (or_intror I))); lia|].
    unfold modules. rewrite E, !map_app. cbn [map]. symmetry. apply Permutation_middle.
Qed.
Print Assumptions C80_report.
Example C80_report_nonvacuous : snd (report_module kb (doall hist empty)) = 2 /\ snd (report_module kd (doall hist empty)) = 4 /\ modules (fst (report_module kd (doall (hist ++ [Begin]) empty))) = [(kd, 4); (kc, 3); (kb, 2)].
Proof. vm_compute. repeat split. Qed.

Lemma begin_marked : forall s, marked true (t_mods (report_begin s)).
Proof. intros s. apply Forall_forall. intros m I. cbn [report_begin t_mods] in I. apply in_map_iff in I. destruct I as (x & <- & _). reflexivity. Qed.
Lemma begin_mods : forall s, modules (report_begin s) = modules s.
Proof. intros s. unfold modules. cbn [report_begin t_mods]. rewrite map_map. reflexivity. Qed.
Lemma stays_live : forall l, marked false l -> stays l = l /\ gone l = [].
Proof. induction l as [|m l IH]; intros F; [split; reflexivity|]. apply Forall_cons_iff in F. destruct F as (G & F). destruct (IH F) as (A & B). unfold stays, gone in *. cbn [filter]. rewrite G. cbn [negb]. rewrite A, B. split; reflexivity. Qed.
Lemma stays_old : forall l, marked true l -> stays l = [] /\ gone l = l.
Proof. induction l as [|m l IH]; intros F; [split; reflexivity|]. apply Forall_cons_iff in F. destruct F as (G & F). destruct (IH F) as (A & B). unfold stays, gone in *. cbn [filter]. rewrite G. cbn [negb]. rewrite A, B. split; reflexivity. Qed.
Lemma marked_filter : forall g h l, marked g l -> marked g (filter h l).
Proof. intros g h l F. apply Forall_forall. intros m I. apply filter_In in I. exact (proj1 (Forall_forall _ _) F m (proj1 I)). Qed.
Definition never (removed : option (Z -> Z)) : Prop := forall f, removed = Some f -> forall h, f h = 0.
Definition calls_of (removed : option (Z -> Z)) (l : list Z) : list Z := match removed with Some _ => l | None => [] end.
Lemma sweep_never : forall removed l, never removed -> sweep removed l = (stays l, ids (gone l), calls_of removed (ids (gone l)), 0).
Proof.
  intros removed l NV. pose proof (sweep_ok removed l) as H. destruct (sweep removed l) as (((k, fr), c), x). destruct H as [(-> & -> & -> & -> & _)|(X & f & l1 & m & l2 & E & _ & _ & FX & _)]; [reflexivity|]. rewrite (NV f E) in FX. congruence.
Qed.

(* begin, reports, end: afterwards the modules are those reported, in the order in which each was
   first reported; one that was there keeps its handle and a new one has a new handle; removed is
   called with exactly those that were not reported again, and exactly those are freed *)
Theorem C80_cycle : forall cs ks removed, (forall f, removed = Some f -> forall h, f h = 0) -> let s := doall cs empty in
  let '(s', called, result) := report_end removed (doall (Begin :: map Report ks) s) in
  let lost := map snd (filter (fun p => negb (existsb (key_eqb (fst p)) ks)) (modules s)) in
  result = 0 /\ map fst (modules s') = firsts ks [] /\
  (forall k h, In (k, h) (modules s') -> In (k, h) (modules s) \/ (~ In k (map fst (modules s)) /\ ~ In h (map snd (modules s)) /\ ~ In h (t_freed s))) /\
  called = match removed with Some _ => lost | None => [] end /\ t_freed s' = rev lost ++ t_freed s.
Proof.
  intros cs ks removed NV. cbn zeta. pose proof (good_all cs empty good_empty) as G. set (s := doall cs empty) in *. clearbody s. cbn [doall do].
  pose proof (good_do Begin s G) as GB. cbn [do] in GB. destruct (reports_ok ks (report_begin s) [] (t_mods (report_begin s)) eq_refl (Forall_nil _) (begin_marked s) GB) as (new & M & LN & KN & FR & IDS).
  cbn [app keys map] in M, KN. unfold report_end. rewrite M, (sweep_never removed _ NV).
  set (old := filter (unreported ks) (t_mods (report_begin s))) in *. assert (MO : marked true old) by (apply marked_filter, begin_marked).
  assert (ST : stays (new ++ old) = new /\ gone (new ++ old) = old). { unfold stays, gone. rewrite !filter_app. destruct (stays_live new LN) as (A & B). destruct (stays_old old MO) as (A' & B'). unfold stays, gone in *. rewrite A, B, A', B', app_nil_r. split; reflexivity. }
  destruct ST as (-> & ->).
  assert (LO : ids old = map snd (filter (fun p => negb (existsb (key_eqb (fst p)) ks)) (modules s))).
  { subst old. unfold modules, report_begin. cbn [t_mods]. clear. induction (t_mods s) as [|m l IH]; [reflexivity|]. cbn [map filter]. unfold unreported at 1. cbn [d_key fst]. destruct (negb (existsb (key_eqb (d_key m)) ks)); cbn [map ids d_id snd]; [f_equal; exact IH|exact IH]. }
  rewrite <- LO. split; [reflexivity|]. split; [rewrite modules_keys; exact KN|]. split; [|split; [destruct removed; reflexivity|cbn [t_freed]; rewrite FR; reflexivity]].
  intros k h I. unfold modules in I. cbn [t_mods] in I. apply in_map_iff in I. destruct I as (m & E & I). injection E as <- <-. destruct (IDS m I) as [(m0 & I0 & -> & ->)|(N0 & N1)].
  - left. rewrite <- begin_mods. apply (in_map (fun m => (d_key m, d_id m))). exact I0.
  - right. change (keys (t_mods (report_begin s))) with (keys (t_mods (report_begin s))) in N1. rewrite <- modules_keys, begin_mods in N1. cbn [report_begin t_next] in N0. rewrite modules_ids. destruct G as [_ _ C].
    split; [exact N1|]. split; intros J; [specialize (C _ (in_or_app _ _ _ (or_introl J)))|specialize (C _ (in_or_app _ _ _ (or_intror J)))]; lia.
Qed.
Print Assumptions C80_cycle.
Example C80_cycle_nonvacuous : let '(s, c, x) := report_end (Some (fun _ => 0)) (doall (Begin :: map Report [kd; kb; kd; ka]) (doall hist empty)) in
  modules s = [(kd, 4); (kb, 2); (ka, 5)] /\ c = [3] /\ t_freed s = [3; 1].
Proof. vm_compute. repeat split. Qed.

(* begin_add, reports, end: the modules that are there stay in place, those reported that are new
   follow, and nothing is removed *)
Theorem C80_add : forall cs ks removed, let s := doall (cs ++ [EndReport None]) empty in
  let '(s', called, result) := report_end removed (doall (BeginAdd :: map Report ks) s) in
  result = 0 /\ called = [] /\ t_freed s' = t_freed s /\
  exists new, modules s' = modules s ++ new /\ map fst new = firsts ks (map fst (modules s)) /\
    forall k h, In (k, h) new -> ~ In h (map snd (modules s)) /\ ~ In h (t_freed s).
Proof.
  intros cs ks removed. cbn zeta. pose proof (good_all (cs ++ [EndReport None]) empty good_empty) as G. assert (LV : marked false (t_mods (doall (cs ++ [EndReport None]) empty))).
  { assert (D : forall cs s, doall (cs ++ [EndReport None]) s = do (EndReport None) (doall cs s)) by (induction cs0 as [|c cs0 IH]; intros s; [reflexivity|cbn [app doall]; apply IH]).
    rewrite D. cbn [do]. unfold report_end. rewrite (sweep_never None) by (intros f E; discriminate). cbn [fst t_mods]. apply Forall_forall. intros m I. apply filter_In in I. destruct (d_gc m); [destruct I; discriminate|reflexivity]. }
  set (s := doall (cs ++ [EndReport None]) empty) in *. clearbody s. cbn [doall do]. unfold report_begin_add.
  destruct (reports_ok ks s (t_mods s) [] (eq_sym (app_nil_r _)) LV (Forall_nil _) G) as (new & M & LN & KN & FR & IDS). cbn [filter] in M. rewrite app_nil_r in M.
  assert (LA : marked false (t_mods s ++ new)) by (apply Forall_app; split; assumption). destruct (stays_live _ LA) as (A & B).
  unfold report_end. rewrite M. pose proof (sweep_ok removed (t_mods s ++ new)) as H. destruct (sweep removed (t_mods s ++ new)) as (((k, fr), c), x). destruct H as [(-> & -> & -> & -> & _)|(X & f & l1 & m & l2 & _ & E & GM & _)].
  - rewrite A, B. split; [reflexivity|]. split; [destruct removed; reflexivity|]. split; [exact FR|]. exists (map (fun m => (d_key m, d_id m)) new). unfold modules at 1. cbn [t_mods]. rewrite map_app. split; [reflexivity|]. split; [rewrite map_map, modules_keys; exact KN|].
    intros k h I. apply in_map_iff in I. destruct I as (m & E & I). injection E as <- <-. destruct (IDS m I) as [(m0 & [] & _)|(N0 & _)]. rewrite modules_ids. destruct G as [_ _ C]. split; intros J; [specialize (C _ (in_or_app _ _ _ (or_introl J)))|specialize (C _ (in_or_app _ _ _ (or_intror J)))]; lia.
  - exfalso. rewrite E in LA. apply Forall_app in LA. destruct LA as (_ & LA). apply Forall_cons_iff in LA. destruct LA as (LA & _). congruence.
Qed.
Print Assumptions C80_add.
Example C80_add_nonvacuous : let '(s, c, x) := report_end (Some (fun h => h)) (doall (BeginAdd :: map Report [kd; kb; kd; ka]) (doall hist empty)) in
  modules s = [(kc, 3); (kb, 2); (kd, 4); (ka, 5)] /\ c = [] /\ x = 0.
Proof. vm_compute. repeat split. Qed.

(* when the callback stops the end of the reports: the module it was called with is still there,
   and ending again goes on with it and comes to what one end would have come to *)
Theorem C80_stopped : forall f s s1 c1 x, report_end (Some f) s = (s1, c1, x) -> x <> 0 ->
  exists c h c2 s2, c1 = c ++ [h] /\ f h = x /\ In h (map snd (modules s1)) /\ ~ In h c /\
    report_end (Some (fun _ => 0)) s1 = (s2, h :: c2, 0) /\ report_end (Some (fun _ => 0)) s = (s2, c ++ h :: c2, 0).
Proof.
  intros f s s1 c1 x E X. unfold report_end in *. pose proof (sweep_ok (Some f) (t_mods s)) as H. destruct (sweep (Some f) (t_mods s)) as (((k, fr), c), x0). injection E as <- <- <-. destruct H as [(-> & _)|(_ & f' & l1 & m & l2 & EF & EL & GM & FX & -> & -> & -> & Z0)]; [congruence|]. injection EF as <-.
  assert (NV : never (Some (fun _ : Z => 0))) by (intros g E; injection E as <-; reflexivity). cbn [t_mods t_next t_freed]. rewrite EL, !(sweep_never _ _ NV). cbn [calls_of].
  assert (SS : stays (stays l1) = stays l1 /\ gone (stays l1) = []) by (apply stays_live; apply Forall_forall; intros y I; apply filter_In in I; destruct (d_gc y); [destruct I; discriminate|reflexivity]). destruct SS as (S1 & S2).
  exists (ids (gone l1)), (d_id m), (ids (gone l2)). eexists. split; [reflexivity|]. split; [exact FX|]. split; [rewrite modules_ids; unfold ids; cbn [t_mods]; rewrite map_app; apply in_or_app; right; left; reflexivity|].
  split. { intros I. unfold ids in I. apply in_map_iff in I. destruct I as (y & EY & I). apply filter_In in I. apply X. rewrite <- FX, <- EY. apply Z0; apply I. }
  assert (Q : forall a b, stays (a ++ b) = stays a ++ stays b /\ gone (a ++ b) = gone a ++ gone b) by (intros; unfold stays, gone; rewrite !filter_app; split; reflexivity).
  assert (Q1 : stays (m :: l2) = stays l2 /\ gone (m :: l2) = m :: gone l2) by (unfold stays, gone; cbn [filter]; rewrite GM; split; reflexivity). destruct Q1 as (Q1 & Q2).
  rewrite !(proj1 (Q _ _)), !(proj2 (Q _ _)), S1, S2, Q1, Q2. cbn [app]. unfold ids. rewrite map_app. cbn [map]. split; [reflexivity|]. f_equal. f_equal. f_equal. rewrite rev_app_distr. cbn [rev]. rewrite <- !app_assoc. reflexivity.
Qed.
Print Assumptions C80_stopped.
Example C80_stopped_nonvacuous : let s := doall [Begin; Report ka; Report kb; Report kc; Report kd; Begin; Report kb] empty in
  let '(s1, c1, x) := report_end (Some (fun h => h / 3)) s in modules s1 = [(kb, 2); (kc, 3); (kd, 4)] /\ c1 = [1; 3] /\ x = 1.
Proof. vm_compute. repeat split. Qed.

Definition all_given (s : st) : Prop := 1 <= t_next s /\ forall i, In i (ids (t_mods s) ++ t_freed s) <-> 1 <= i < t_next s.
Lemma given_report : forall k s, all_given s -> all_given (fst (report_module k s)).
Proof.
  intros k s (HN & H). destruct (report_ok k s) as [(a & b & m & l2 & E & F & K & N & _ & R)|(a & b & E & F & N & _ & R)]; rewrite R; unfold all_given; cbn [fst t_mods t_next t_freed]; (split; [lia|]); intros i; specialize (H i); rewrite E in H; unfold ids in *; rewrite !map_app in *; cbn [map live_md d_id] in *; rewrite ?map_app; rewrite !in_app_iff in *; cbn [In] in *; rewrite ?in_app_iff in *.
  - rewrite <- H. tauto.
  - destruct (Z.eq_dec i (t_next s)) as [->|D].
    + split; [lia|]. intros _. left. right. left. reflexivity.
    + split; [intros J; assert (J' : 1 <= i < t_next s) by (apply H; destruct J as [[J|[J|J]]|J]; [tauto|congruence|tauto|tauto]); lia|]. intros J. assert (J' : 1 <= i < t_next s) by lia. apply H in J'. tauto.
Qed.
Lemma given_do : forall c s, all_given s -> all_given (do c s).
Proof.
  intros c s H. destruct c as [| |k|k|removed]; cbn [do].
  - destruct H as (HN & H). split; [exact HN|]. unfold report_begin. cbn [t_mods t_freed t_next]. unfold ids in *. rewrite map_map. exact H.
  - exact H.
  - apply given_report. exact H.
  - unfold report_clash. pose proof (given_report k s H) as (HN & G1). destruct (report_module k s) as ([l n f], h). cbn [fst t_mods t_next t_freed] in *. split; [exact HN|]. cbn [t_mods t_next t_freed]. rewrite (proj2 (ids_flag (fun m => d_id m =? h) l)). exact G1.
  - unfold report_end. pose proof (sweep_perm removed (t_mods s)) as P. destruct (sweep removed (t_mods s)) as (((k, fr), c), x). cbn [fst]. destruct P as (P & _). destruct H as (HN & H). split; [exact HN|]. cbn [t_mods t_freed t_next]. intros i. rewrite <- H.
    assert (PP : Permutation (ids (t_mods s) ++ t_freed s) (ids k ++ rev fr ++ t_freed s)). { rewrite P, <- app_assoc. apply Permutation_app_head, Permutation_app_tail, Permutation_rev. }
    split; apply Permutation_in; [symmetry; exact PP|exact PP].
Qed.
Lemma given_all : forall cs s, all_given s -> all_given (doall cs s).
Proof. induction cs as [|c cs IH]; intros s H; [exact H|]. apply IH, given_do, H. Qed.

(* dwfl_end: after it all that was ever given out is freed, each once, and no module is left *)
Theorem C80_end : forall cs, let s := dwfl_end (doall cs empty) in
  modules s = [] /\ NoDup (t_freed s) /\ (forall h, In h (t_freed s) <-> 1 <= h < t_next (doall cs empty)) /\ (forall h, In h (map snd (modules (doall cs empty))) -> In h (t_freed s)).
Proof.
  intros cs. cbn zeta. pose proof (good_all cs empty good_empty) as G. assert (H : all_given (doall cs empty)) by (apply given_all; split; [cbn; lia|]; intros i; cbn; lia).
  set (s := doall cs empty) in *. clearbody s. unfold dwfl_end. cbn [modules t_mods map t_freed]. fold (ids (t_mods s)). assert (PP : Permutation (ids (t_mods s) ++ t_freed s) (rev (ids (t_mods s)) ++ t_freed s)) by (apply Permutation_app_tail, Permutation_rev).
  split; [reflexivity|]. split; [exact (Permutation_NoDup PP (g_ids s G))|]. split.
  - intros h. rewrite <- (proj2 H h). split; apply Permutation_in; [symmetry; exact PP|exact PP].
  - intros h I. rewrite modules_ids in I. apply in_or_app. left. apply in_rev in I. exact I.
Qed.
Print Assumptions C80_end.
Example C80_end_nonvacuous : t_freed (dwfl_end (doall hist empty)) = [2; 3; 1] /\ t_next (doall hist empty) = 4.
Proof. vm_compute. split; reflexivity. Qed.

(* a report that fails because another file was reported under this name and these addresses does
   not leave the modules as they were: the module that was reported first is marked, and the end of
   the reports removes it although it was reported *)
Theorem C80_clash_refuted : exists cs k h, In (k, h) (modules (doall cs empty)) /\ In (k, h) (modules (doall (cs ++ [EndReport None]) empty)) /\
  ~ In (k, h) (modules (doall (cs ++ [Clash k; EndReport None]) empty)) /\ In h (t_freed (doall (cs ++ [Clash k; EndReport None]) empty)).
Proof.
  exists [Begin; Report ka; Report kb], ka, 1. assert (E1 : modules (doall [Begin; Report ka; Report kb] empty) = [(ka, 1); (kb, 2)]) by (vm_compute; reflexivity). assert (E2 : modules (doall ([Begin; Report ka; Report kb] ++ [EndReport None]) empty) = [(ka, 1); (kb, 2)]) by (vm_compute; reflexivity).
  assert (E3 : modules (doall ([Begin; Report ka; Report kb] ++ [Clash ka; EndReport None]) empty) = [(kb, 2)]) by (vm_compute; reflexivity). assert (E4 : t_freed (doall ([Begin; Report ka; Report kb] ++ [Clash ka; EndReport None]) empty) = [1]) by (vm_compute; reflexivity).
  rewrite E1, E2, E3, E4. split; [left; reflexivity|]. split; [left; reflexivity|]. split; [intros [H|[]]; discriminate|left; reflexivity].
Qed.
Print Assumptions C80_clash_refuted.
(* what such a report does leave as it was: which modules there are until the end of the reports,
   their handles, and the marks of all others *)
Theorem C80_clash_partial : forall cs k, In k (map fst (modules (doall cs empty))) ->
  let s := doall cs empty in let s' := doall (cs ++ [Clash k]) empty in
  Permutation (modules s') (modules s) /\ t_freed s' = t_freed s /\
  (forall m, d_key m <> k -> In m (t_mods s) <-> In m (t_mods s')).
Proof.
  intros cs k IK. cbn zeta. assert (D : forall cs s, doall (cs ++ [Clash k]) s = report_clash k (doall cs s)) by (induction cs0 as [|c cs0 IH]; intros s; [reflexivity|cbn [app doall]; apply IH]). rewrite D. pose proof (good_all cs empty good_empty) as G. set (s := doall cs empty) in *. clearbody s. rewrite modules_keys in IK.
  unfold report_clash. destruct (report_ok k s) as [(a & b & m & l2 & E & F & K & N & _ & R)|(a & b & E & F & N & _ & R)]; [|exfalso; apply N; rewrite <- E; exact IK]. rewrite R. cbn [t_mods t_freed t_next].
  pose proof (ids_flag (fun x => d_id x =? d_id m)) as FL.
  assert (MM : forall l, map (fun m => (d_key m, d_id m)) (map (fun x => if d_id x =? d_id m then Md (d_id x) (d_key x) true else x) l) = map (fun m => (d_key m, d_id m)) l) by (intros l; rewrite map_map; apply map_ext; intros y; destruct (d_id y =? d_id m); reflexivity).
  split; [|split; [reflexivity|]].
  - unfold modules. cbn [t_mods]. rewrite MM, E, !map_app. apply Permutation_app_head. cbn [map live_md d_key d_id]. rewrite map_app. apply Permutation_middle.
  - intros y NY. assert (UI : forall z, In z (a ++ b ++ m :: l2) -> d_id z = d_id m -> z = m).
    { intros z I EI. destruct G as [_ B _]. rewrite E in B. apply nodup_l in B. rewrite app_assoc in B, I. unfold ids in B. rewrite map_app in B. cbn [map] in B. apply NoDup_remove_2 in B. apply in_app_or in I. destruct I as [I|[I|I]]; [|symmetry; exact I|]; exfalso; apply B; rewrite <- EI; apply in_or_app; [left|right]; apply in_map; exact I. }
    rewrite E. split; intros I.
    + apply in_map_iff. exists y. assert (IDN : d_id y <> d_id m) by (intros Q; rewrite (UI y I Q) in NY; contradiction). destruct (d_id y =? d_id m) eqn:Q; [lia|]. split; [reflexivity|]. rewrite !in_app_iff in *. cbn [In] in *. rewrite in_app_iff. destruct I as [I|[I|[I|I]]]; [tauto|tauto|subst; contradiction|tauto].
    + apply in_map_iff in I. destruct I as (z & EZ & I). assert (KZ : d_key z = d_key y) by (rewrite <- EZ; destruct (d_id z =? d_id m); reflexivity).
      rewrite in_app_iff in I. cbn [In] in I. rewrite in_app_iff in I. destruct I as [I|[I|I]].
      2: { exfalso. apply NY. rewrite <- KZ, <- I. exact K. }
      * assert (IZ : In z (a ++ b ++ m :: l2)) by (apply in_or_app; left; exact I). destruct (d_id z =? d_id m) eqn:Q; [|subst; exact IZ]. exfalso. apply Z.eqb_eq in Q. apply NY. rewrite <- KZ, (UI z IZ Q). exact K.
      * assert (IZ : In z (a ++ b ++ m :: l2)) by (rewrite !in_app_iff; cbn [In]; tauto). destruct (d_id z =? d_id m) eqn:Q; [|subst; exact IZ]. exfalso. apply Z.eqb_eq in Q. apply NY. rewrite <- KZ, (UI z IZ Q). exact K.
Qed.
Print Assumptions C80_clash_partial.
Example C80_clash_partial_nonvacuous : In ka (map fst (modules (doall [Begin; Report ka; Report kb] empty))) /\ modules (doall ([Begin; Report ka; Report kb] ++ [Clash ka]) empty) = [(ka, 1); (kb, 2)].
Proof. split; [left; reflexivity|vm_compute; reflexivity]. Qed.
