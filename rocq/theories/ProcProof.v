(* Proofs about the modules of a process. *)
From Verif Require Import Base CrcModel ProcModel ProcSpec FindProof.

Lemma key_ok : forall a b, key_eqb a b = true <-> a = b.
Proof.
  intros [[a1 a2] a3] [[b1 b2] b3]. unfold key_eqb. cbn [fst snd]. rewrite !andb_true_iff, !Z.eqb_eq. split; [intros [[-> ->] ->]; reflexivity|intros H; injection H; auto].
Qed.

Lemma is_file_ok : forall l, is_file l = true <-> file_line l.
Proof.
  intros l. unfold is_file, file_line. destruct (m_name l) as [|c r]; [split; [discriminate|intros [(r & E) _]; discriminate E]|].
  rewrite andb_true_iff, negb_true_iff, Z.eqb_eq. split.
  - intros [-> N]. split; [exists r; reflexivity|]. intros (A & B & C). rewrite A, B, C in N. discriminate N.
  - intros [(r' & E) N]. injection E as -> _. split; [reflexivity|]. apply not_true_is_false. intros X. apply N. rewrite !andb_true_iff, !Z.eqb_eq in X. tauto.
Qed.

(* the state stands for the groups done and the items of the group not reported yet *)
Definition stands (vname : bytes) (gs : list (list item)) (pend : list item) (s : pst) : Prop :=
  p_out s = map (module_of vname) gs /\ Forall one_module gs /\ Forall (one_name vname) gs /\ apart (gs ++ (match pend with [] => [] | _ => [pend] end)) /\
  ((pend = [] /\ p_last s = None) \/
   (same_file (p_key s) pend /\ p_last s = Some (name_of vname (hd (V 0 0) pend)) /\ one_name vname pend /\
    p_low s = start_of (hd (V 0 0) pend) /\ p_high s = end_of (last pend (V 0 0)))).

Lemma kind_same : forall k g, same_file k g -> kind g = Some k.
Proof. intros k g [N F0]. destruct g as [|x g]; [congruence|]. inversion F0 as [|? ? (l & -> & E) _]; subst. reflexivity. Qed.

Lemma apart_nil : apart [].
Proof. intros a g h b E. destruct a; discriminate E. Qed.
Lemma apart_prefix : forall a b, apart (a ++ b) -> apart a.
Proof. intros a b H x g h y E. apply (H x g h (y ++ b)). rewrite E, <- app_assoc. reflexivity. Qed.
Lemma apart_snoc : forall gs g h, apart (gs ++ [g]) -> kind g = None \/ kind g <> kind h -> apart ((gs ++ [g]) ++ [h]).
Proof.
  intros gs g h A K x g1 g2 y E.
  destruct y as [|z y0] using rev_ind.
  - replace ((gs ++ [g]) ++ [h]) with ((gs ++ [g]) ++ [h]) in E by reflexivity. replace (x ++ [g1; g2]) with ((x ++ [g1]) ++ [g2]) in E by (rewrite <- app_assoc; reflexivity).
    apply app_inj_tail in E. destruct E as [E ->]. apply app_inj_tail in E. destruct E as [_ ->]. exact K.
  - replace (x ++ g1 :: g2 :: y0 ++ [z]) with ((x ++ g1 :: g2 :: y0) ++ [z]) in E by (rewrite <- app_assoc; reflexivity).
    apply app_inj_tail in E. destruct E as [E _]. exact (A _ _ _ _ E).
Qed.
Lemma apart_add : forall gs h, apart gs -> (forall a g, gs = a ++ [g] -> kind g = None \/ kind g <> kind h) -> apart (gs ++ [h]).
Proof.
  intros gs h A K. destruct gs as [|g gs _] using rev_ind.
  - intros x g1 g2 y E. destruct x as [|x0 x]; [discriminate E|]. destruct x; discriminate E.
  - apply apart_snoc; [exact A|]. apply (K gs). reflexivity.
Qed.

Lemma report_ok : forall ok vname gs pend s b s', stands vname gs pend s -> do_report ok s = (b, s') -> (forall m, ok m = true) ->
  b = false /\ stands vname (gs ++ (match pend with [] => [] | _ => [pend] end)) [] s'.
Proof.
  intros ok vname gs pend s b s' (O & M & N & A & P) E OK. unfold do_report in E. destruct P as [(-> & L)|(S1 & L & N1 & Lo & Hi)]; rewrite L in E.
  - injection E as <- <-. split; [reflexivity|]. rewrite !app_nil_r. rewrite app_nil_r in A. split; [exact O|]. split; [exact M|]. split; [exact N|]. rewrite app_nil_r. split; [exact A|]. left. auto.
  - rewrite OK in E. injection E as <- <-. split; [reflexivity|]. destruct pend as [|x pend]; [destruct S1; congruence|].
    split; [cbn [p_out]; rewrite map_app, O, Lo, Hi; reflexivity|]. split; [apply Forall_app; split; [exact M|constructor; [right; eexists; exact S1|constructor]]|].
    split; [apply Forall_app; split; [exact N|constructor; [exact N1|constructor]]|]. rewrite app_nil_r. split; [exact A|]. left. auto.
Qed.

Definition closed (gs : list (list item)) (pend : list item) : Prop := pend = [] -> forall a g, gs = a ++ [g] -> kind g = None.

(* one line; the items it stands for are consumed *)
Lemma line_ok : forall ok vdso vname l s gs pend a b, (forall m, ok m = true) -> stands vname gs pend s -> closed gs pend ->
  ((special_line vdso l /\ a = [V (m_start l) (m_end l)]) \/ (~ special_line vdso l /\ a = [])) ->
  ((file_line l /\ b = [F l]) \/ (~ file_line l /\ b = [])) ->
  exists b1 s1, special ok vdso vname l s = (b1, s1) /\ b1 = false /\
  exists b2 s2, mapping ok l s1 = (b2, s2) /\
   ((b2 = false /\ exists gs' pend', stands vname gs' pend' s2 /\ closed gs' pend' /\ concat gs' ++ pend' = concat gs ++ pend ++ a ++ b) \/
    (b2 = true /\ s2 = s1 /\ a = [] /\ b = [F l] /\ exists x, In (F x) pend /\ key_of x = key_of l /\ m_name x <> m_name l)).
Proof.
  intros ok vdso vname l s gs pend a b OK S CL A B.
  assert (SP : exists s1 gs1 pend1, special ok vdso vname l s = (false, s1) /\ stands vname gs1 pend1 s1 /\ closed gs1 pend1 /\ concat gs1 ++ pend1 = concat gs ++ pend ++ a /\ (a = [] -> gs1 = gs /\ pend1 = pend) /\ (a <> [] -> pend1 = [])).
  { unfold special. destruct A as [((A1 & A2) & ->)|(A & ->)].
    - replace ((m_start l =? vdso) && negb (m_start l =? 0)) with true by (symmetry; lia).
      destruct (do_report ok s) as [b1 s1] eqn:E. destruct (report_ok _ _ _ _ _ _ _ S E OK) as [-> S1]. unfold do_report. cbn [p_last]. rewrite OK. cbn [p_low p_high p_out p_key].
      eexists. exists ((gs ++ (match pend with [] => [] | _ => [pend] end)) ++ [[V (m_start l) (m_end l)]]), []. split; [reflexivity|].
      destruct S1 as (O & M & N & AP & P). rewrite app_nil_r in AP. split; [|split; [|split; [|split; [discriminate|reflexivity]]]].
      + split; [cbn [p_out]; rewrite map_app, O; reflexivity|]. split; [apply Forall_app; split; [exact M|constructor; [left; eauto|constructor]]|].
        split; [apply Forall_app; split; [exact N|constructor; [constructor; [reflexivity|constructor]|constructor]]|]. split; [|left; auto]. rewrite app_nil_r.
        apply apart_add; [exact AP|]. intros x g Eg. destruct (kind g) eqn:K; [right; discriminate|left; reflexivity].
      + intros _ x g Eg. apply app_inj_tail in Eg. destruct Eg as [_ <-]. reflexivity.
      + rewrite !concat_app. cbn [concat]. rewrite !app_nil_r. destruct pend; cbn [concat app]; rewrite ?app_nil_r, <- ?app_assoc; reflexivity.
    - replace ((m_start l =? vdso) && negb (m_start l =? 0)) with false.
      2: { symmetry. apply not_true_is_false. intros X. apply A. unfold special_line. lia. }
      exists s, gs, pend. rewrite app_nil_r. split; [reflexivity|]. split; [exact S|]. split; [exact CL|]. split; [reflexivity|]. split; [auto|congruence]. }
  destruct SP as (s1 & gs1 & pend1 & E1 & S1 & CL1 & C1 & AE & AN). exists false, s1. split; [exact E1|]. split; [reflexivity|]. clear E1.
  unfold mapping. destruct B as [(B & ->)|(B & ->)].
  2: { replace (is_file l) with false by (symmetry; apply not_true_is_false; rewrite is_file_ok; exact B). cbn [negb]. exists false, s1. split; [reflexivity|]. left. split; [reflexivity|].
       exists gs1, pend1. split; [exact S1|]. split; [exact CL1|]. rewrite app_nil_r. exact C1. }
  rewrite (proj2 (is_file_ok l) B). cbn [negb].
  assert (FR : (forall x k, pend1 = x :: k -> p_last s1 <> None -> key_of l <> p_key s1) -> exists b2 s2, (let (b0, s0) := do_report ok s1 in if b0 then (true, s0) else (false, Pst (Some (m_name l)) (key_of l) (m_start l) (m_end l) (p_out s0))) = (b2, s2) /\ b2 = false /\
     exists gs' pend', stands vname gs' pend' s2 /\ closed gs' pend' /\ concat gs' ++ pend' = concat gs ++ pend ++ a ++ [F l]).
  { intros NK. destruct (do_report ok s1) as [b1 s2] eqn:E. destruct (report_ok _ _ _ _ _ _ _ S1 E OK) as [-> S2]. eexists; eexists. split; [reflexivity|]. split; [reflexivity|].
    exists (gs1 ++ (match pend1 with [] => [] | _ => [pend1] end)), [F l]. destruct S2 as (O & M & N & AP & P). rewrite app_nil_r in AP. split; [|split; [discriminate|]].
    - split; [exact O|]. split; [exact M|]. split; [exact N|]. split.
      + apply apart_add; [exact AP|]. intros x g Eg. destruct S1 as (_ & M1 & _ & AP1 & P1).
        destruct P1 as [(-> & _)|(SF & L & _)].
        * rewrite app_nil_r in Eg. left. exact (CL1 eq_refl _ _ Eg).
        * destruct pend1 as [|y k]; [destruct SF; congruence|]. apply app_inj_tail in Eg. destruct Eg as [_ <-]. right. rewrite (kind_same _ _ SF). cbn [kind]. intros X. injection X as X. apply (NK y k eq_refl); [congruence|symmetry; exact X].
      + right. cbn. split; [split; [discriminate|constructor; [eauto|constructor]]|]. split; [reflexivity|]. split; [constructor; [reflexivity|constructor]|]. auto.
    - rewrite concat_app. destruct pend1; cbn [concat app]; rewrite ?app_nil_r in *; rewrite <- ?app_assoc; rewrite ?app_assoc in *; rewrite C1; reflexivity. }

  destruct S1 as (O & M & N & AP & P). assert (S1 : stands vname gs1 pend1 s1) by (repeat split; assumption).
  destruct P as [(EP & L)|(SF & L & N1 & Lo & Hi)]; rewrite L.
  - destruct FR as (b2 & s2 & E2 & -> & R); [intros x k E; congruence|]. exists false, s2. split; [exact E2|]. left. split; [reflexivity|exact R].
  - destruct (key_eqb (key_of l) (p_key s1)) eqn:K.
    2: { destruct FR as (b2 & s2 & E2 & -> & R). { intros x k _ _ X. rewrite (proj2 (key_ok _ _) X) in K. discriminate K. }
         exists false, s2. split; [exact E2|]. left. split; [reflexivity|exact R]. }
    apply key_ok in K. destruct (beq (name_of vname (hd (V 0 0) pend1)) (m_name l)) eqn:BQ.
    + apply beq_ok in BQ. eexists; eexists. split; [reflexivity|]. left. split; [reflexivity|]. exists gs1, (pend1 ++ [F l]).
      destruct pend1 as [|x pe]; [destruct SF; congruence|]. split; [|split; [discriminate|]].
      * split; [exact O|]. split; [exact M|]. split; [exact N|]. split.
        -- cbn [app]. apply apart_add; [exact (apart_prefix _ _ AP)|]. intros a0 g Eg. apply (AP a0 g (x :: pe) []). rewrite Eg, <- app_assoc. reflexivity.
        -- right. cbn [p_key p_last p_low p_high]. split; [split; [discriminate|]; apply Forall_app; split; [exact (proj2 SF)|constructor; [exists l; auto|constructor]]|].
           split; [rewrite BQ; cbn [app hd]; cbn [hd] in BQ; rewrite BQ; reflexivity|]. split; [|split; [exact Lo|rewrite last_last; reflexivity]].
           unfold one_name. apply Forall_app. split; [exact N1|]. constructor; [|constructor]. cbn [app hd name_of]. symmetry. exact BQ.
      * rewrite app_assoc, C1, <- !app_assoc. reflexivity.
    + exists true, s1. split; [reflexivity|]. right. split; [reflexivity|]. split; [reflexivity|].
      assert (EA : a = []) by (destruct a; [reflexivity|]; exfalso; rewrite AN in SF by discriminate; destruct SF; congruence).
      destruct (AE EA) as [-> ->]. split; [exact EA|]. split; [reflexivity|].
      destruct pend as [|x pe]; [destruct SF; congruence|]. destruct SF as [_ SF]. inversion SF as [|? ? (y & -> & Ky) _]; subst.
      exists y. split; [left; reflexivity|]. split; [congruence|]. intros X. cbn [hd name_of] in BQ. rewrite X in BQ. rewrite (proj2 (beq_ok _ _) eq_refl) in BQ. discriminate BQ.
Qed.

(* ---- the loop ---- *)
Definition conflict (is : list item) : Prop := exists x y, In (F x) is /\ In (F y) is /\ key_of x = key_of y /\ m_name x <> m_name y.

Lemma items_total : forall vdso ls, exists is, items_of vdso ls is.
Proof.
  intros vdso ls. induction ls as [|l ls (is & H)]; [exists []; constructor|].
  assert (D1 : special_line vdso l \/ ~ special_line vdso l) by (unfold special_line; lia).
  assert (D2 : file_line l \/ ~ file_line l) by (destruct (is_file l) eqn:E; [left; apply is_file_ok; exact E|right; rewrite <- is_file_ok; congruence]).
  exists ((if (m_start l =? vdso) && negb (vdso =? 0) then [V (m_start l) (m_end l)] else []) ++ (if is_file l then [F l] else []) ++ is).
  constructor; [exact H| |].
  - destruct ((m_start l =? vdso) && negb (vdso =? 0)) eqn:E; [left|right]; (split; [|reflexivity]); unfold special_line; lia.
  - destruct (is_file l) eqn:E; [left|right]; (split; [|reflexivity]); rewrite <- is_file_ok; congruence.
Qed.

Lemma loop_ok : forall ok vdso vname stop, (forall m, ok m = true) -> forall ts ls, Forall2 (fun t l => parse_line (chop t) = Some l) ts ls ->
  forall is, items_of vdso ls is -> forall rest s gs pend, stands vname gs pend s -> closed gs pend ->
  (exists out, maps_loop ok vdso vname stop (ts ++ rest) s = (-1, out) /\ conflict (concat gs ++ pend ++ is)) \/
  (exists s' gs' pend', maps_loop ok vdso vname stop (ts ++ rest) s = maps_loop ok vdso vname stop rest s' /\
     stands vname gs' pend' s' /\ closed gs' pend' /\ concat gs' ++ pend' = concat gs ++ pend ++ is).
Proof.
  intros ok vdso vname stop OK ts ls F2. induction F2 as [|t l ts ls P F2 IH]; intros is I rest s gs pend S CL.
  - inversion I; subst. right. exists s, gs, pend. rewrite app_nil_r. cbn [app]. auto.
  - inversion I as [|? ? a b i I' A B]; subst. cbn [app maps_loop]. rewrite P.
    destruct (line_ok ok vdso vname l s gs pend a b OK S CL A B) as (b1 & s1 & E1 & -> & b2 & s2 & E2 & R). rewrite E1, E2.
    destruct R as [(-> & gs' & pend' & S' & CL' & C')|(-> & -> & -> & -> & x & X1 & X2 & X3)].
    + destruct (IH i I' rest s2 gs' pend' S' CL') as [(out & E & x & y & X1 & X2 & X3)|(s3 & gs3 & pend3 & E & S3 & CL3 & C3)].
      * left. exists out. split; [exact E|]. exists x, y.
        rewrite !app_assoc in *. rewrite C' in X1, X2. auto.
      * right. exists s3, gs3, pend3. split; [exact E|]. split; [exact S3|]. split; [exact CL3|]. rewrite C3. rewrite !app_assoc in *. rewrite C'. reflexivity.
    + left. eexists. split; [reflexivity|]. exists x, l. split; [apply in_or_app; right; apply in_or_app; left; exact X1|]. split; [apply in_or_app; right; apply in_or_app; right; left; reflexivity|]. auto.
Qed.

Lemma items_file : forall vdso ls is, items_of vdso ls is -> forall x, In (F x) is -> In x ls /\ file_line x.
Proof.
  intros vdso ls is I. induction I as [|l r a b i I IH A B]; intros x H; [destruct H|].
  apply in_app_or in H. destruct H as [H|H].
  - destruct A as [(_ & ->)|(_ & ->)]; [destruct H as [H|[]]; discriminate H|destruct H].
  - apply in_app_or in H. destruct H as [H|H]; [destruct B as [(B & ->)|(_ & ->)]; [destruct H as [H|[]]; injection H as <-; split; [left; reflexivity|exact B]|destruct H]|].
    destruct (IH x H). split; [right; assumption|assumption].
Qed.

Definition start_state : pst := Pst None (two64 - 1, two32 - 1, two32 - 1) 0 0 [].
Lemma start_stands : forall vname, stands vname [] [] start_state.
Proof. intros vname. split; [reflexivity|]. split; [constructor|]. split; [constructor|]. split; [exact apart_nil|]. left. auto. Qed.
Lemma start_closed : closed [] [].
Proof. intros _ a g E. destruct a; discriminate E. Qed.

(* ---- the grouping is determined ---- *)
Lemma one_module_nonempty : forall g, one_module g -> g <> [].
Proof. intros g [(s & e & ->)|(k & N & _)]; [discriminate|exact N]. Qed.
Lemma group_step : forall g g' gs gs', one_module g -> one_module g' -> Forall one_module gs -> apart (g :: gs) -> g ++ concat gs = g' ++ concat gs' -> (length g' <= length g)%nat.
Proof.
  intros g g' gs gs' O O' OS A E. destruct (Nat.le_gt_cases (length g') (length g)) as [L|L]; [exact L|exfalso].
  assert (EQ : g' = g ++ firstn (length g' - length g) (concat gs)).
  { assert (X : firstn (length g') (g ++ concat gs) = firstn (length g') (g' ++ concat gs')) by (rewrite E; reflexivity).
    rewrite !firstn_app in X. rewrite Nat.sub_diag in X. rewrite (firstn_all2 g) in X by lia. rewrite (firstn_all2 g') in X by lia. cbn [firstn] in X. rewrite app_nil_r in X. symmetry. exact X. }
  destruct gs as [|h gs].
  - cbn [concat] in EQ. rewrite firstn_nil, app_nil_r in EQ. subst g'. lia.
  - pose proof (Forall_inv OS) as OH. pose proof (one_module_nonempty _ OH) as NH. destruct h as [|y h]; [congruence|].
    destruct (length g' - length g)%nat as [|n] eqn:N; [lia|]. cbn [concat app firstn] in EQ.
    pose proof (one_module_nonempty _ O) as NG. destruct g as [|x g]; [congruence|].
    destruct O' as [(s & e & X)|(k & _ & FA)]; [rewrite X in EQ; destruct g; discriminate EQ|].
    rewrite EQ in FA. cbn [app] in FA. pose proof (Forall_inv FA) as (lx & -> & KX). apply Forall_inv_tail in FA. apply Forall_app in FA. destruct FA as [_ FA]. pose proof (Forall_inv FA) as (ly & -> & KY).
    destruct (A [] (F lx :: g) (F ly :: h) gs eq_refl) as [X|X]; cbn [kind] in X; [discriminate X|congruence].
Qed.
Lemma apart_tail : forall g gs, apart (g :: gs) -> apart gs.
Proof. intros g gs A a x h b E. apply (A (g :: a) x h b). rewrite E. reflexivity. Qed.
Lemma groups_unique : forall gs gs', Forall one_module gs -> Forall one_module gs' -> apart gs -> apart gs' -> concat gs = concat gs' -> gs = gs'.
Proof.
  intros gs. induction gs as [|g gs IH]; intros gs' O O' A A' E.
  - destruct gs' as [|g' gs']; [reflexivity|]. pose proof (one_module_nonempty _ (Forall_inv O')). destruct g'; [congruence|discriminate E].
  - destruct gs' as [|g' gs']; [pose proof (one_module_nonempty _ (Forall_inv O)); destruct g; [congruence|discriminate E]|].
    cbn [concat] in E.
    pose proof (group_step _ _ _ _ (Forall_inv O) (Forall_inv O') (Forall_inv_tail O) A E) as L1.
    pose proof (group_step _ _ _ _ (Forall_inv O') (Forall_inv O) (Forall_inv_tail O') A' (eq_sym E)) as L2.
    assert (EG : g = g').
    { assert (X : firstn (length g) (g ++ concat gs) = firstn (length g) (g' ++ concat gs')) by (rewrite E; reflexivity).
      rewrite !firstn_app in X. rewrite Nat.sub_diag in X. replace (length g - length g')%nat with 0%nat in X by lia. rewrite (firstn_all2 g) in X by lia. rewrite (firstn_all2 g') in X by lia. cbn [firstn] in X. rewrite !app_nil_r in X. exact X. }
    subst g'. f_equal. apply IH; [exact (Forall_inv_tail O)|exact (Forall_inv_tail O')|exact (apart_tail _ _ A)|exact (apart_tail _ _ A')|]. exact (app_inv_head _ _ _ E).
Qed.

(* ---- reports that fail ---- *)
Definition yes (m : modl) : bool := true.
Lemma do_report_agree : forall ok s s', do_report ok s = (false, s') -> Forall (fun m => ok m = true) (p_out s) -> do_report yes s = (false, s') /\ Forall (fun m => ok m = true) (p_out s').
Proof.
  intros ok s s' E F0. unfold do_report in *. destruct (p_last s) as [n|]; [|injection E as <-; auto].
  destruct (ok (n, p_low s, p_high s)) eqn:O; [|discriminate E]. injection E as <-. cbn [yes]. split; [reflexivity|]. cbn [p_out]. apply Forall_app. split; [exact F0|constructor; [exact O|constructor]].
Qed.
Lemma do_report_back : forall ok s b s', do_report yes s = (b, s') -> Forall (fun m => ok m = true) (p_out s') -> b = false /\ do_report ok s = (false, s') /\ exists n, p_out s' = p_out s ++ n.
Proof.
  intros ok s b s' E F0. unfold do_report, yes in *. destruct (p_last s) as [n|].
  - injection E as <- <-. cbn [p_out] in F0. apply Forall_app in F0. destruct F0 as [_ F0]. rewrite (Forall_inv F0). split; [reflexivity|]. split; [reflexivity|]. eexists. reflexivity.
  - injection E as <- <-. split; [reflexivity|]. split; [reflexivity|]. exists []. rewrite app_nil_r. reflexivity.
Qed.
Lemma special_agree : forall ok vdso vname l s s', special ok vdso vname l s = (false, s') -> Forall (fun m => ok m = true) (p_out s) -> special yes vdso vname l s = (false, s') /\ Forall (fun m => ok m = true) (p_out s').
Proof.
  intros ok vdso vname l s s' E F0. unfold special in *. destruct ((m_start l =? vdso) && negb (m_start l =? 0)); [|injection E as <-; auto].
  destruct (do_report ok s) as [b1 s1] eqn:E1. destruct b1; [discriminate E|]. destruct (do_report_agree _ _ _ E1 F0) as [E1' F1]. rewrite E1'. apply do_report_agree; [exact E|exact F1].
Qed.
Lemma mapping_agree : forall ok l s s', mapping ok l s = (false, s') -> Forall (fun m => ok m = true) (p_out s) -> mapping yes l s = (false, s') /\ Forall (fun m => ok m = true) (p_out s').
Proof.
  intros ok l s s' E F0. unfold mapping in *. destruct (negb (is_file l)); [injection E as <-; auto|].
  assert (FR : (let (b, s) := do_report ok s in if b then (true, s) else (false, Pst (Some (m_name l)) (key_of l) (m_start l) (m_end l) (p_out s))) = (false, s') ->
    (let (b, s) := do_report yes s in if b then (true, s) else (false, Pst (Some (m_name l)) (key_of l) (m_start l) (m_end l) (p_out s))) = (false, s') /\ Forall (fun m => ok m = true) (p_out s')).
  { intros E0. destruct (do_report ok s) as [b1 s1] eqn:E1. destruct b1; [discriminate E0|]. destruct (do_report_agree _ _ _ E1 F0) as [E1' F1]. rewrite E1'. split; [exact E0|]. injection E0 as <-. exact F1. }
  destruct (p_last s) as [n|]; [|exact (FR E)]. destruct (key_eqb (key_of l) (p_key s)); [|exact (FR E)].
  destruct (beq n (m_name l)); [|discriminate E]. injection E as <-. auto.
Qed.
Lemma loop_agree : forall ok vdso vname ts s out, maps_loop ok vdso vname 0 ts s = (0, out) -> Forall (fun m => ok m = true) (p_out s) -> maps_loop yes vdso vname 0 ts s = (0, out) /\ Forall (fun m => ok m = true) out.
Proof.
  intros ok vdso vname ts. induction ts as [|t ts IH]; intros s out E F0; cbn [maps_loop] in *.
  - destruct (do_report ok s) as [b1 s1] eqn:E1. destruct b1; [discriminate E|]. destruct (do_report_agree _ _ _ E1 F0) as [E1' F1]. rewrite E1'. split; [exact E|]. injection E as <-. exact F1.
  - destruct (parse_line (chop t)) as [l|]; [|discriminate E].
    destruct (special ok vdso vname l s) as [b1 s1] eqn:E1. destruct b1; [discriminate E|]. destruct (special_agree _ _ _ _ _ _ E1 F0) as [E1' F1]. rewrite E1'.
    destruct (mapping ok l s1) as [b2 s2] eqn:E2. destruct b2; [discriminate E|]. destruct (mapping_agree _ _ _ _ E2 F1) as [E2' F2]. rewrite E2'. apply IH; assumption.
Qed.

Lemma special_back : forall ok vdso vname l s b s', special yes vdso vname l s = (b, s') -> Forall (fun m => ok m = true) (p_out s') -> b = false /\ special ok vdso vname l s = (false, s') /\ exists n, p_out s' = p_out s ++ n.
Proof.
  intros ok vdso vname l s b s' E F0. unfold special in *. destruct ((m_start l =? vdso) && negb (m_start l =? 0)).
  2: { injection E as <- <-. split; [reflexivity|]. split; [reflexivity|]. exists []. rewrite app_nil_r. reflexivity. }
  destruct (do_report yes s) as [b1 s1] eqn:E1. assert (b1 = false) by (unfold do_report, yes in E1; destruct (p_last s); congruence). subst b1.
  destruct (do_report_back ok _ _ _ E F0) as (-> & E2 & n & N). cbn [p_out] in N. rewrite N in F0. apply Forall_app in F0. destruct F0 as [F0 _].
  destruct (do_report_back ok _ _ _ E1 F0) as (_ & E3 & m & M). rewrite E3. split; [reflexivity|]. split; [exact E2|]. exists (m ++ n). rewrite N, M, app_assoc. reflexivity.
Qed.
Lemma mapping_back : forall ok l s b s', mapping yes l s = (b, s') -> Forall (fun m => ok m = true) (p_out s') -> mapping ok l s = (b, s') /\ exists n, p_out s' = p_out s ++ n.
Proof.
  intros ok l s b s' E F0. unfold mapping in *.
  assert (Z0 : exists n, p_out s = p_out s ++ n) by (exists []; rewrite app_nil_r; reflexivity).
  destruct (negb (is_file l)); [injection E as <- <-; split; [reflexivity|exact Z0]|].
  assert (FR : (let (b, s) := do_report yes s in if b then (true, s) else (false, Pst (Some (m_name l)) (key_of l) (m_start l) (m_end l) (p_out s))) = (b, s') ->
    (let (b, s) := do_report ok s in if b then (true, s) else (false, Pst (Some (m_name l)) (key_of l) (m_start l) (m_end l) (p_out s))) = (b, s') /\ exists n, p_out s' = p_out s ++ n).
  { intros E0. destruct (do_report yes s) as [b1 s1] eqn:E1. assert (b1 = false) by (unfold do_report, yes in E1; destruct (p_last s); congruence). subst b1.
    assert (F1 : Forall (fun m => ok m = true) (p_out s1)) by (injection E0 as <- <-; exact F0).
    destruct (do_report_back ok _ _ _ E1 F1) as (_ & E3 & m & M). rewrite E3. split; [exact E0|]. exists m. injection E0 as <- <-. exact M. }
  destruct (p_last s) as [n|]; [|exact (FR E)]. destruct (key_eqb (key_of l) (p_key s)); [|exact (FR E)].
  destruct (beq n (m_name l)); injection E as <- <-; (split; [reflexivity|exact Z0]).
Qed.
Lemma loop_mono : forall ok vdso vname stop ts s r out, maps_loop ok vdso vname stop ts s = (r, out) -> exists n, out = p_out s ++ n.
Proof.
  assert (D : forall ok s b s', do_report ok s = (b, s') -> exists n, p_out s' = p_out s ++ n).
  { intros ok s b s' E. unfold do_report in E. assert (Z0 : exists n, p_out s = p_out s ++ n) by (exists []; rewrite app_nil_r; reflexivity). destruct (p_last s) as [n|]; [destruct (ok (n, p_low s, p_high s))|]; injection E as <- <-; cbn [p_out]; [eexists; reflexivity|exact Z0|exact Z0]. }
  intros ok vdso vname stop ts. induction ts as [|t ts IH]; intros s r out E; cbn [maps_loop] in E.
  - destruct (do_report ok s) as [b1 s1] eqn:E1. injection E as _ <-. exact (D _ _ _ _ E1).
  - assert (Z0 : forall s, exists n, p_out s = p_out s ++ n) by (intros; exists []; rewrite app_nil_r; reflexivity).
    destruct (parse_line (chop t)) as [l|]; [|injection E as _ <-; apply Z0].
    destruct (special ok vdso vname l s) as [b1 s1] eqn:E1.
    assert (M1 : exists n, p_out s1 = p_out s ++ n).
    { unfold special in E1. destruct ((m_start l =? vdso) && negb (m_start l =? 0)); [|injection E1 as _ <-; apply Z0].
      destruct (do_report ok s) as [b0 s0] eqn:E0. destruct (D _ _ _ _ E0) as [n N]. destruct b0; [injection E1 as _ <-; eauto|]. destruct (D _ _ _ _ E1) as [m M]. cbn [p_out] in M. exists (n ++ m). rewrite M, N, app_assoc. reflexivity. }
    destruct M1 as [n1 N1]. destruct b1; [injection E as _ <-; eauto|].
    destruct (mapping ok l s1) as [b2 s2] eqn:E2.
    assert (M2 : exists n, p_out s2 = p_out s1 ++ n).
    { unfold mapping in E2. destruct (negb (is_file l)); [injection E2 as _ <-; apply Z0|].
      assert (FR : (let (b, s) := do_report ok s1 in if b then (true, s) else (false, Pst (Some (m_name l)) (key_of l) (m_start l) (m_end l) (p_out s))) = (b2, s2) -> exists n, p_out s2 = p_out s1 ++ n).
      { intros E0. destruct (do_report ok s1) as [b0 s0] eqn:E3. destruct (D _ _ _ _ E3) as [n N]. destruct b0; injection E0 as _ <-; eauto. }
      destruct (p_last s1) as [n|]; [|exact (FR E2)]. destruct (key_eqb (key_of l) (p_key s1)); [|exact (FR E2)]. clear FR E N1. destruct (beq n (m_name l)); injection E2 as _ X2; rewrite <- X2; exact (Z0 s1). }
    destruct M2 as [n2 N2]. destruct b2; [injection E as _ <-; exists (n1 ++ n2); rewrite N2, N1, app_assoc; reflexivity|].
    destruct (IH _ _ _ E) as [n3 N3]. exists (n1 ++ n2 ++ n3). rewrite N3, N2, N1, !app_assoc. reflexivity.
Qed.
Lemma loop_back : forall ok vdso vname ts s out, maps_loop yes vdso vname 0 ts s = (0, out) -> Forall (fun m => ok m = true) out -> maps_loop ok vdso vname 0 ts s = (0, out).
Proof.
  intros ok vdso vname ts. induction ts as [|t ts IH]; intros s out E F0; cbn [maps_loop] in *.
  - destruct (do_report yes s) as [b1 s1] eqn:E1. assert (b1 = false) by (unfold do_report, yes in E1; destruct (p_last s); congruence). subst b1.
    injection E as <-. destruct (do_report_back ok _ _ _ E1 F0) as (_ & E3 & _). rewrite E3. reflexivity.
  - destruct (parse_line (chop t)) as [l|]; [|discriminate E].
    destruct (special yes vdso vname l s) as [b1 s1] eqn:E1. destruct b1; [discriminate E|].
    destruct (mapping yes l s1) as [b2 s2] eqn:E2. destruct b2; [discriminate E|].
    destruct (loop_mono _ _ _ _ _ _ _ _ E) as [n N].
    assert (F2 : Forall (fun m => ok m = true) (p_out s2)) by (rewrite N in F0; apply Forall_app in F0; tauto).
    destruct (mapping_back ok _ _ _ _ E2 F2) as (E2' & m & M).
    assert (F1 : Forall (fun m => ok m = true) (p_out s1)) by (rewrite M in F2; apply Forall_app in F2; tauto).
    destruct (special_back ok _ _ _ _ _ _ E1 F1) as (_ & E1' & _). rewrite E1', E2'. apply IH; assumption.
Qed.

(* ---- ascending ---- *)
Definition irange (x : item) : Z * Z := (start_of x, end_of x).
Lemma ascending_low : forall l a b, a <= b -> ascending b l -> ascending a l.
Proof. intros [|[s e] l] a b L; [trivial|]. cbn. intros (A & B & C). repeat split; auto; lia. Qed.
Lemma ascending_skip : forall l a s e, ascending a ((s, e) :: l) -> ascending a l.
Proof. intros l a s e (A & B & C). apply (ascending_low l a e); [lia|exact C]. Qed.
Lemma ascending_items : forall vdso ls is, items_of vdso ls is -> Forall (fun l => ~ (special_line vdso l /\ file_line l)) ls ->
  forall low, ascending low (map (fun l => (m_start l, m_end l)) ls) -> ascending low (map irange is).
Proof.
  intros vdso ls is I. induction I as [|l r a b i I IH A B]; intros ND low AS; [exact Logic.I|].
  pose proof (Forall_inv ND) as N1. cbn [map] in AS.
  assert (R : forall w, low <= w -> ascending w (map (fun l => (m_start l, m_end l)) r) -> ascending w (map irange i)) by (intros w _ X; apply IH; [exact (Forall_inv_tail ND)|exact X]).
  destruct A as [(A & ->)|(A & ->)], B as [(B & ->)|(B & ->)]; cbn [app map].
  - destruct (N1 (conj A B)).
  - destruct AS as (X & Y & Z0). repeat split; [exact X|exact Y|]. apply R; [cbn; lia|exact Z0].
  - destruct AS as (X & Y & Z0). repeat split; [exact X|exact Y|]. apply R; [cbn; lia|exact Z0].
  - apply R; [lia|]. exact (ascending_skip _ _ _ _ AS).
Qed.
Lemma ascending_group : forall g x low rest, ascending low (map irange (x :: g) ++ rest) ->
  low <= start_of x /\ start_of x <= end_of (last (x :: g) (V 0 0)) /\ ascending (end_of (last (x :: g) (V 0 0))) rest /\
  Forall (fun y => start_of x <= start_of y /\ start_of y <= end_of y /\ end_of y <= end_of (last (x :: g) (V 0 0))) (x :: g).
Proof.
  intros g. induction g as [|y g IH]; intros x low rest A.
  - destruct A as (A & B & C). cbn. split; [exact A|]. split; [exact B|]. split; [exact C|]. constructor; [lia|constructor].
  - cbn [map app] in A. destruct A as (A & B & C). destruct (IH y (end_of x) rest C) as (D & E & G & H).
    replace (last (x :: y :: g) (V 0 0)) with (last (y :: g) (V 0 0)) by reflexivity. split; [exact A|]. split; [lia|]. split; [exact G|].
    constructor; [lia|]. eapply Forall_impl; [|exact H]. intros z (P & Q & T). lia.
Qed.
Lemma ascending_groups : forall vname gs low, Forall one_module gs -> ascending low (map irange (concat gs)) ->
  ascending low (map (fun m : modl => (snd (fst m), snd m)) (map (module_of vname) gs)) /\
  Forall (fun g => Forall (fun y => snd (fst (module_of vname g)) <= start_of y /\ start_of y <= end_of y /\ end_of y <= snd (module_of vname g)) g) gs.
Proof.
  intros vname gs. induction gs as [|g gs IH]; intros low O A; [split; [exact Logic.I|constructor]|].
  pose proof (one_module_nonempty _ (Forall_inv O)). destruct g as [|x g]; [congruence|].
  cbn [concat] in A. rewrite map_app in A. destruct (ascending_group g x low _ A) as (B & C & D & E). destruct (IH _ (Forall_inv_tail O) D) as [F0 G].
  split; [|constructor; [exact E|exact G]]. cbn [map]. split; [exact B|]. split; [exact C|exact F0].
Qed.

(* ---- the text of a line ---- *)
Lemma hexdigit_ok : forall c d, hexdigit c d -> digit c = Some d /\ is_ws c = false /\ 0 <= d.
Proof.
  intros c d [(-> & B)|(-> & B)]; unfold digit, is_ws.
  - replace ((48 <=? c) && (c <=? 57)) with true by lia. split; [reflexivity|]. lia.
  - replace ((48 <=? c) && (c <=? 57)) with false by lia. replace ((97 <=? c) && (c <=? 102)) with true by lia. split; [reflexivity|]. lia.
Qed.
Lemma number_writes : forall base s v, writes base s v -> forall r, number base 0 (s ++ r) = number base v r.
Proof.
  intros base s v W. induction W as [c d H L|s v c d W IH H L]; intros r; destruct (hexdigit_ok _ _ H) as (D & _).
  - cbn [app number]. rewrite D. rewrite (proj2 (Z.ltb_lt _ _) L). reflexivity.
  - rewrite <- app_assoc. rewrite IH. cbn [app number]. rewrite D. rewrite (proj2 (Z.ltb_lt _ _) L). reflexivity.
Qed.
Lemma writes_first : forall base s v, writes base s v -> exists c r d, s = c :: r /\ hexdigit c d /\ d < base.
Proof.
  intros base s v W. induction W as [c d H L|s v c d W (x & r & e & -> & H' & L') H L]; [exists c, [], d; auto|].
  exists x, (r ++ [c]), e. auto.
Qed.
(* what follows a number does not continue it *)
Definition ends (base : Z) (r : bytes) : Prop := match r with [] => True | c :: _ => match digit c with Some d => base <= d | None => True end end.
Lemma number_stop : forall base v r, ends base r -> number base v r = (v, r).
Proof. intros base v [|c r] E; [reflexivity|]. cbn [number]. cbn [ends] in E. destruct (digit c) as [d|]; [|reflexivity]. rewrite (proj2 (Z.ltb_ge _ _) E). reflexivity. Qed.
Lemma skip_blanks : forall b r, blank b -> skip_ws (b ++ r) = skip_ws r.
Proof. intros b r B. induction B as [|c b -> B IH]; [reflexivity|]. cbn. exact IH. Qed.
Lemma skip_not : forall s, (match s with c :: _ => is_ws c = false | [] => True end) -> skip_ws s = s.
Proof. intros [|c s] H; [reflexivity|]. cbn [skip_ws]. rewrite H. reflexivity. Qed.
Lemma scan_writes : forall base s v r, writes base s v -> v < two64 -> ends base r -> scan_num base (s ++ r) = Some (v, r).
Proof.
  intros base s v r W B E. destruct (writes_first _ _ _ W) as (c & s' & d & -> & H & L). destruct (hexdigit_ok _ _ H) as (D & NW & _).
  unfold scan_num. rewrite skip_not by exact NW. cbn [app]. rewrite D, (proj2 (Z.ltb_lt _ _) L). cbv zeta.
  replace (c :: s' ++ r) with ((c :: s') ++ r) by reflexivity. rewrite (number_writes _ _ _ W), number_stop by exact E. cbn [fst snd]. rewrite Z.min_l by lia. reflexivity.
Qed.
Lemma scan_int_writes : forall s v r, writes 10 s v -> v < two64 -> ends 10 r -> (s = [48] \/ hd 0 s <> 48) -> scan_int (s ++ r) = Some (v, r).
Proof.
  intros s v r W B E Z0. destruct (writes_first _ _ _ W) as (c & s' & d & ES & H & L). destruct (hexdigit_ok _ _ H) as (D & NW & _).
  assert (scan_int (s ++ r) = scan_num (if c =? 48 then 8 else 10) (s ++ r)) as ->.
  { unfold scan_int. rewrite ES. cbn [app]. rewrite skip_not by exact NW. reflexivity. }
  destruct Z0 as [->|N].
  - injection ES as <- <-. apply scan_writes; [|exact B|].
    + inversion W as [? ? H1 L1 E1 E2|s0 v0 c0 d0 W0 H0 L0 E1 E2]; subst.
      * destruct (hexdigit_ok _ _ H1) as (D1 & _). cbn in D1. injection D1 as D1. apply W1; [exact H1|cbn; lia].
      * exfalso. destruct (writes_first _ _ _ W0) as (x & y & z & -> & _). apply (f_equal (@length Z)) in E1. cbn in E1. rewrite app_length in E1. cbn in E1. lia.
    + destruct r as [|x r]; [exact I|]. cbn [ends] in *. destruct (digit x); [cbn; lia|exact I].
  - rewrite ES in N. cbn [hd] in N. rewrite (proj2 (Z.eqb_neq _ _) N). apply scan_writes; assumption.
Qed.
Lemma skip_word_ok : forall w r, Forall (fun c => is_ws c = false) w -> skip_word (w ++ 32 :: r) = 32 :: r.
Proof. intros w r F0. induction F0 as [|c w H F0 IH]; [reflexivity|]. cbn [app skip_word]. rewrite H. exact IH. Qed.
Lemma skip_blank_not : forall s, (match s with c :: _ => is_ws c = false | [] => True end) -> skip_blank s = s.
Proof.
  intros [|c s] H; [reflexivity|]. cbn [skip_blank]. unfold is_ws in H. replace ((c =? 32) || (c =? 9)) with false by lia. reflexivity.
Qed.
Lemma writes_skip : forall base s v r, writes base s v -> skip_ws (s ++ r) = s ++ r.
Proof. intros base s v r W. destruct (writes_first _ _ _ W) as (c & s' & d & -> & H & _). apply skip_not. exact (proj1 (proj2 (hexdigit_ok _ _ H))). Qed.

Lemma line_text : forall sa a sb b w so o smj mj smn mn si i bl name,
  writes 16 sa a -> writes 16 sb b -> word w -> writes 16 so o -> writes 16 smj mj -> writes 16 smn mn -> writes 10 si i ->
  (si = [48] \/ hd 0 si <> 48) -> a < two64 -> b < two64 -> o < two64 -> mj < two32 -> mn < two32 -> i < two64 ->
  blank bl -> (name = [] \/ (bl <> [] /\ is_ws (hd 32 name) = false)) ->
  0 <= mj -> 0 <= mn ->
  parse_line (sa ++ [45] ++ sb ++ [32] ++ w ++ [32] ++ so ++ [32] ++ smj ++ [58] ++ smn ++ [32] ++ si ++ bl ++ name) = Some (Mline a b o mj mn i name).
Proof.
  intros sa a sb b w so o smj mj smn mn si i bl name Wa Wb Ww Wo Wmj Wmn Wi Z0 Ba Bb Bo Bmj Bmn Bi BL NM P1 P2.
  unfold parse_line. rewrite (scan_writes 16 sa a _ Wa Ba) by (cbn; exact I). cbn [obn snd fst app]. unfold lit at 1. cbn [Z.eqb Pos.eqb obn].
  rewrite (scan_writes 16 sb b _ Wb Bb) by (cbn; exact I). cbn [obn snd fst].
  assert (EW : forall r, scan_word (skip_ws (32 :: w ++ 32 :: r)) = Some (32 :: r)).
  { intros r. destruct Ww as [N FW]. destruct w as [|c w]; [congruence|]. pose proof (Forall_inv FW) as NC. cbn [skip_ws is_ws Z.eqb Pos.eqb orb app]. cbn [skip_ws]. rewrite NC.
    unfold scan_word. cbn [skip_ws]. rewrite NC. f_equal. exact (skip_word_ok (c :: w) r FW). }
  rewrite EW. cbn [obn].
  cbn [skip_ws is_ws Z.eqb Pos.eqb orb]. rewrite (writes_skip 16 so o) by exact Wo. rewrite (scan_writes 16 so o _ Wo Bo) by (cbn; exact I). cbn [obn snd fst].
  cbn [skip_ws is_ws Z.eqb Pos.eqb orb]. rewrite (writes_skip 16 smj mj) by exact Wmj. rewrite (scan_writes 16 smj mj _ Wmj) by (try (cbn; exact I); lia). cbn [obn snd fst].
  unfold lit. cbn [Z.eqb Pos.eqb obn]. rewrite (scan_writes 16 smn mn _ Wmn) by (try (cbn; exact I); lia). cbn [obn snd fst].
  cbn [skip_ws is_ws Z.eqb Pos.eqb orb]. rewrite (writes_skip 10 si i) by exact Wi.
  assert (EI : ends 10 (bl ++ name)).
  { destruct BL as [|c bl -> BL]; [destruct NM as [->|(N & _)]; [exact I|congruence]|]. cbn. exact I. }
  rewrite (scan_int_writes si i _ Wi Bi EI Z0). cbn [obn snd fst].
  rewrite (skip_blanks bl name BL).
  assert (EN : match name with c :: _ => is_ws c = false | [] => True end) by (destruct name; [exact I|]; destruct NM as [N|(_ & N)]; [discriminate N|exact N]).
  rewrite skip_not by exact EN. rewrite skip_blank_not by exact EN. unfold u32. rewrite !Z.mod_small by (split; assumption). reflexivity.
Qed.
Lemma chop_line : forall s, chop (s ++ [10]) = s.
Proof. intros s. unfold chop. rewrite rev_app_distr. cbn [rev app]. apply rev_involutive. Qed.

(* ---- the auxiliary vector ---- *)
Definition estep (dec : bytes -> Z) (acc : Z * Z) (e : bytes * bytes) : Z * Z :=
  if dec (fst e) =? 33 then (dec (snd e), snd acc) else if dec (fst e) =? 6 then (fst acc, dec (snd e)) else acc.
Lemma skipn_zlen : forall (p r : bytes) n, zlen p = n -> skipn (Z.to_nat n) (p ++ r) = r.
Proof. intros p r n E. unfold zlen in E. subst n. rewrite Nat2Z.id. rewrite skipn_app, skipn_all, Nat.sub_diag. reflexivity. Qed.
Lemma zsub_at : forall (p s q : bytes) o n, zlen p = o -> zlen s = n -> zsub (p ++ s ++ q) o n = s.
Proof. intros p s q o n <- <-. apply zsub_app. Qed.
Lemma entries_vector : forall dec w, 0 < w -> forall es tail, zlen tail < 2 * w -> Forall (fun e => zlen (fst e) = w /\ zlen (snd e) = w) es ->
  forall fuel acc, (length (concat (map (fun e => fst e ++ snd e) es) ++ tail) <= fuel)%nat ->
  entries fuel dec w (concat (map (fun e => fst e ++ snd e) es) ++ tail) acc = fold_left (estep dec) es acc.
Proof.
  intros dec w W es tail T F0. induction F0 as [|[t v] es [Ht Hv] F0 IH]; intros fuel acc L.
  - cbn [map concat app fold_left]. destruct fuel; cbn [entries]; [reflexivity|]. rewrite (proj2 (Z.ltb_lt _ _) T). reflexivity.
  - cbn [fst snd] in Ht, Hv. cbn [map concat fst snd] in *. destruct fuel as [|fuel].
    { exfalso. rewrite !app_length in L. unfold zlen in *. lia. }
    cbn [entries]. rewrite (proj2 (Z.ltb_ge _ _)) by (rewrite !zlen_app; pose proof (zlen_nonneg _ tail); pose proof (zlen_nonneg _ (concat (map (fun e => fst e ++ snd e) es))); lia).
    rewrite <- !app_assoc. replace (zsub (t ++ v ++ concat (map (fun e => fst e ++ snd e) es) ++ tail) 0 w) with t by (symmetry; apply (zsub_at []); [reflexivity|exact Ht]).
    rewrite (zsub_at t v) by assumption. cbv zeta.
    replace (t ++ v ++ concat (map (fun e => fst e ++ snd e) es) ++ tail) with ((t ++ v) ++ concat (map (fun e => fst e ++ snd e) es) ++ tail) by (rewrite <- app_assoc; reflexivity).
    rewrite skipn_zlen by (rewrite zlen_app; lia). cbn [fold_left]. apply IH. rewrite !app_length in *. unfold zlen in *. lia.
Qed.
Lemma skipn_add : forall (l : bytes) a b, skipn a (skipn b l) = skipn (b + a) l.
Proof. intros l a b. revert l. induction b as [|b IH]; intros l; [reflexivity|]. destruct l as [|x l]; [rewrite !skipn_nil; reflexivity|]. cbn. apply IH. Qed.
(* any bytes are such a sequence *)
Lemma vector_total : forall w, 0 < w -> forall n (f : bytes), (length f <= n)%nat -> exists es, vector w f es.
Proof.
  intros w W n. induction n as [|n IH]; intros f L.
  - destruct f; [|cbn in L; lia]. exists [], []. split; [reflexivity|]. split; [rewrite zlen_nil; lia|constructor].
  - destruct (Z.lt_ge_cases (zlen f) (2 * w)) as [X|X].
    + exists [], f. split; [reflexivity|]. split; [exact X|constructor].
    + destruct (IH (skipn (Z.to_nat (2 * w)) f)) as (es & tail & E & T & F0); [rewrite skipn_length; unfold zlen in X; lia|].
      exists ((firstn (Z.to_nat w) f, firstn (Z.to_nat w) (skipn (Z.to_nat w) f)) :: es), tail. split; [|split; [exact T|]].
      * cbn [map concat fst snd]. rewrite <- !app_assoc. rewrite <- E. rewrite <- (firstn_skipn (Z.to_nat w) f) at 1. f_equal. rewrite <- (firstn_skipn (Z.to_nat w) (skipn (Z.to_nat w) f)) at 1. f_equal. rewrite skipn_add. f_equal. lia.
      * constructor; [|exact F0]. cbn [fst snd]. unfold zlen in *. rewrite !firstn_length, skipn_length. lia.
Qed.
Lemma last_of_fold : forall dec es acc, last_of dec 33 es (fst acc) (fst (fold_left (estep dec) es acc)) /\ last_of dec 6 es (snd acc) (snd (fold_left (estep dec) es acc)).
Proof.
  intros dec es acc. induction es as [|e es [IH1 IH2]] using rev_ind; [split; right; split; constructor|].
  rewrite fold_left_app. cbn [fold_left]. unfold estep at 1 3. destruct (Z.eqb_spec (dec (fst e)) 33) as [E|N1].
  - split; cbn [fst snd]; [left; exists es, e, []; repeat split; [exact E|constructor]|].
    destruct IH2 as [(a & x & b & -> & X & Y & Z0)|(X & Y)]; [left; exists a, x, (b ++ [e]); rewrite <- app_assoc; repeat split; auto|right; split; [|exact Y]]; (apply Forall_app; split; [assumption|constructor; [lia|constructor]]).
  - destruct (Z.eqb_spec (dec (fst e)) 6) as [E|N2]; split; cbn [fst snd].
    + destruct IH1 as [(a & x & b & -> & X & Y & Z0)|(X & Y)]; [left; exists a, x, (b ++ [e]); rewrite <- app_assoc; repeat split; auto|right; split; [|exact Y]]; (apply Forall_app; split; [assumption|constructor; [lia|constructor]]).
    + left; exists es, e, []; repeat split; [exact E|constructor].
    + destruct IH1 as [(a & x & b & -> & X & Y & Z0)|(X & Y)]; [left; exists a, x, (b ++ [e]); rewrite <- app_assoc; repeat split; auto|right; split; [|exact Y]]; (apply Forall_app; split; [assumption|constructor; [lia|constructor]]).
    + destruct IH2 as [(a & x & b & -> & X & Y & Z0)|(X & Y)]; [left; exists a, x, (b ++ [e]); rewrite <- app_assoc; repeat split; auto|right; split; [|exact Y]]; (apply Forall_app; split; [assumption|constructor; [lia|constructor]]).
Qed.
Lemma entries_app : forall dec w, 0 < w -> forall k (d r : bytes), zlen d = 2 * w * Z.of_nat k -> forall acc,
  entries (length (d ++ r)) dec w (d ++ r) acc = entries (length r) dec w r (entries (length d) dec w d acc).
Proof.
  intros dec w W k d r L acc.
  destruct (vector_total w W _ d (le_n _)) as (es & tail & E & T & F0).
  assert (TN : tail = []).
  { assert (X : zlen (concat (map (fun e : bytes * bytes => fst e ++ snd e) es)) = 2 * w * zlen es).
    { clear - F0. induction F0 as [|e es [A B] F0 IH]; [cbn; lia|]. cbn [map concat]. rewrite zlen_app, zlen_cons, IH. unfold bytes in *. rewrite zlen_app, A, B. lia. }
    assert (Y : zlen d = 2 * w * zlen es + zlen tail) by (rewrite E; rewrite zlen_app; f_equal; exact X). pose proof (zlen_nonneg _ tail).
    destruct tail as [|c tail]; [reflexivity|]. exfalso. pose proof (zlen_nonneg _ tail). set (n := zlen es) in *; clearbody n. rewrite L in Y. rewrite zlen_cons in Y, T. clear - W T Y H0. generalize dependent (zlen tail). generalize dependent n. generalize (Z.of_nat k). intros m n u T U Y. destruct (Z.le_gt_cases m n); nia. }
  subst tail. rewrite app_nil_r in E.
  destruct (vector_total w W _ r (le_n _)) as (es2 & tail2 & E2 & T2 & F2).
  assert (A1 : forall a, entries (length r) dec w r a = fold_left (estep dec) es2 a) by (intros a; rewrite E2; apply entries_vector; auto).
  assert (A2 : entries (length d) dec w d acc = fold_left (estep dec) es acc) by (replace d with (concat (map (fun e : bytes * bytes => fst e ++ snd e) es) ++ []) by (rewrite app_nil_r; symmetry; exact E); apply entries_vector; auto).
  rewrite A1, A2, <- fold_left_app.
  assert (E3 : d ++ r = concat (map (fun e : bytes * bytes => fst e ++ snd e) (es ++ es2)) ++ tail2) by (rewrite map_app, concat_app, <- app_assoc; unfold bytes in *; rewrite <- E2, <- E; reflexivity).
  rewrite E3. apply entries_vector; auto. apply Forall_app; auto.
Qed.
Lemma auxv_ok : forall dec f fuel off a64 a32, 0 <= off <= zlen f -> zlen f - off < 1024 * Z.of_nat fuel ->
  auxv_loop fuel dec (fun o => Some (zsub f o 1024)) off a64 a32 =
  Ok (Some (entries (length (skipn (Z.to_nat off) f)) dec 8 (skipn (Z.to_nat off) f) a64, entries (length (skipn (Z.to_nat off) f)) dec 4 (skipn (Z.to_nat off) f) a32)).
Proof.
  intros dec f fuel. induction fuel as [|fuel IH]; intros off a64 a32 B L; [lia|]. cbn [auxv_loop]. cbv zeta.
  set (d := zsub f off 1024). set (r := skipn (Z.to_nat off) f).
  assert (ZR : zlen r = zlen f - off) by (unfold r, zlen in *; rewrite skipn_length; lia).
  assert (ED : d = firstn (Z.to_nat 1024) r) by reflexivity.
  destruct (zlen d =? 1024) eqn:Q.
  - apply Z.eqb_eq in Q. assert (1024 <= zlen r) by (rewrite ED in Q; unfold zlen in *; rewrite firstn_length in Q; lia).
    rewrite Q. rewrite IH by lia.
    assert (ER : r = d ++ skipn (Z.to_nat (off + 1024)) f).
    { rewrite <- (firstn_skipn (Z.to_nat 1024) r) at 1. rewrite <- ED. f_equal. unfold r. rewrite skipn_add. f_equal. lia. }
    rewrite ER. rewrite (entries_app dec 8 ltac:(lia) 64 d) by (rewrite Q; reflexivity). rewrite (entries_app dec 4 ltac:(lia) 128 d) by (rewrite Q; reflexivity). reflexivity.
  - apply Z.eqb_neq in Q. assert (EQ : d = r). { rewrite ED. apply firstn_all2. rewrite ED in Q. unfold zlen in *. rewrite firstn_length in Q. lia. }
    rewrite EQ. reflexivity.
Qed.
Lemma reading_ok : forall dec w f al, 0 < w -> reading dec w f al (fst (entries (length f) dec w f (0, al))) (snd (entries (length f) dec w f (0, al))).
Proof.
  intros dec w f al W. destruct (vector_total w W _ f (le_n _)) as (es & tail & E & T & F0). exists es. split; [exists tail; auto|].
  assert (A : entries (length f) dec w f (0, al) = fold_left (estep dec) es (0, al)) by (rewrite E; apply entries_vector; auto).
  rewrite A. exact (last_of_fold dec es (0, al)).
Qed.
Lemma writes_nonneg : forall base s v, 0 < base -> writes base s v -> 0 <= v.
Proof.
  intros base s v B W. induction W as [c d H L|s v c d W IH H L]; destruct (hexdigit_ok _ _ H) as (_ & _ & P); [exact P|nia].
Qed.
