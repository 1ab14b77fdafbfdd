(* Branches, and one step of the evaluator. *)
From Coq Require Import ZifyBool ZifyNat.
From Verif Require Import Base DwModel Slice LebProof LocModel EvalModel EvalSpec EvalProof Eval2Proof.

Lemma Forall2_znth : forall A B (R : A -> B -> Prop) l m, Forall2 R l m -> zlen l = zlen m /\ forall k a b, znth l k = Some a -> znth m k = Some b -> R a b.
Proof.
  intros A B R l m H. induction H as [|a b l m H1 H2 [L IH]].
  - split; [reflexivity|]. intros k x y X. apply znth_range in X. cbn in X. lia.
  - split; [rewrite !zlen_cons; lia|]. intros k x y X Y. pose proof (znth_range _ _ _ _ X) as R1. destruct (Z.eq_dec k 0) as [->|N].
    + rewrite znth_0 in X, Y. injection X as <-. injection Y as <-. exact H1.
    + replace k with ((k - 1) + 1) in X, Y by lia. rewrite znth_succ in X, Y by lia. exact (IH (k - 1) x y X Y).
Qed.
Lemma stands_means : forall ops p, stands_for ops p -> Forall2 (fun o x => means o (snd x)) ops (p_ins p).
Proof.
  intros ops p H. destruct H as [ops l H|cf vl ops l len H S _ _]; cbn [p_ins].
  - induction H as [|a b ops l [M _] H IH]; constructor; auto.
  - apply Forall2_app; [destruct cf; constructor; constructor|]. apply Forall2_app; [|destruct vl; constructor; constructor].
    clear S. induction H as [|a b ops l [M _] H IH]; constructor; auto.
Qed.

Definition pre (cf : bool) : list op := if cf then [Op 156 0 0 (two64 - 1)] else [].
Definition post (vl : bool) (len : Z) : list op := if vl then [Op 159 0 0 len] else [].
Lemma sorted_snoc : forall l len, StronglySorted Z.lt l -> Forall (fun o => o < len) l -> StronglySorted Z.lt (l ++ [len]).
Proof. intros l len H F. induction H as [|x l H IH G]; cbn; [constructor; constructor|]. inversion F; subst. constructor; [auto|]. apply Forall_app. split; [exact G|]. constructor; [assumption|constructor]. Qed.

Lemma expr_target : forall (cf vl : bool) ops l len off d k',
  Forall2 (fun o x => means o (snd x) /\ fst x = Some (o_off o)) ops l -> Forall (fun o => 0 <= o_off o < len) ops ->
  target false (Prog ((if cf then [(None, DCfa)] else []) ++ l ++ (if vl then [(None, DStackValue)] else [])) len (if cf then 1 + zlen l else zlen l)) off d k' <->
  exists o', znth (pre cf ++ ops ++ post vl len) k' = Some o' /\ o_off o' = off + 3 + d /\ zlen (pre cf) <= k'.
Proof.
  intros cf vl ops l len off d k' F R. set (c := zlen (pre cf)). set (q := (if cf then [(@None Z, DCfa)] else [])). set (t := off + 3 + d). set (u := (if vl then [(@None Z, DStackValue)] else [])).
  destruct (Forall2_znth _ _ _ _ _ F) as [L FZ].
  assert (C : zlen q = c) by (subst q c; destruct cf; reflexivity). assert (U : zlen u = zlen (post vl len)) by (subst u; destruct vl; reflexivity).
  assert (E : (if cf then 1 + zlen l else zlen l) = c + zlen l) by (subst c; destruct cf; cbn; lia). rewrite E.
  assert (C0 : 0 <= c) by (subst c; apply zlen_nonneg). pose proof (zlen_nonneg _ l). pose proof (zlen_nonneg _ u). unfold target. cbn [p_ins p_len p_end]. split.
  - intros [[i N]|(-> & T & [X|K])]; [| discriminate|].
    + pose proof (znth_range _ _ _ _ N) as RG. rewrite !zlen_app in RG. destruct (Z_lt_ge_dec k' c) as [LT|GE].
      { rewrite znth_app_l in N by lia. subst q. destruct cf; [|cbn in C; lia]. assert (k' = 0) as -> by (cbn in C; lia). discriminate. }
      rewrite znth_app_r in N by lia. rewrite C in N. destruct (Z_lt_ge_dec (k' - c) (zlen l)) as [LT|GE'].
      * rewrite znth_app_l in N by lia. destruct (znth_in _ ops (k' - c) ltac:(lia)) as [o' O]. exists o'. destruct (FZ _ _ _ O N) as [_ X]. cbn in X. injection X as X.
        split; [|split; [lia|exact GE'||lia]]. rewrite znth_app_r by (fold c; lia). fold c. rewrite znth_app_l by lia. exact O.
      * rewrite znth_app_r in N by lia. subst u. destruct vl; [|cbn in RG; lia]. assert (k' - c - zlen l = 0) as Z0 by (cbn in RG; lia). rewrite Z0 in N. discriminate.
    + rewrite !zlen_app in K. subst u. destruct vl; [|cbn in K; lia]. exists (Op 159 0 0 len). split; [|cbn [o_off]; split; [lia|lia]].
      rewrite znth_app_r by (fold c; lia). fold c. rewrite znth_app_r by lia. replace (c + zlen l - c - zlen ops) with 0 by lia. reflexivity.
  - intros (o' & N & T & K). fold c in K. pose proof (znth_range _ _ _ _ N) as RG. rewrite !zlen_app in RG. fold c in RG. rewrite znth_app_r in N by (fold c; lia). fold c in N.
    destruct (Z_lt_ge_dec (k' - c) (zlen ops)) as [LT|GE].
    + rewrite znth_app_l in N by lia. left. destruct (znth_in _ l (k' - c) ltac:(lia)) as [[x i] X]. exists i. destruct (FZ _ _ _ N X) as [_ Y]. cbn in Y. subst x.
      rewrite znth_app_r by lia. rewrite C. rewrite znth_app_l by lia. rewrite X. rewrite T. reflexivity.
    + rewrite znth_app_r in N by lia. right. unfold post in *. destruct vl; [|cbn in RG; lia]. assert (k' - c - zlen ops = 0) as Z0 by (cbn in RG; lia). rewrite Z0 in N. injection N as <-. cbn [o_off] in T.
      split; [lia|]. split; [lia|]. right. rewrite !zlen_app, C. subst u. cbn. lia.
Qed.
Lemma s16_num : forall d, -32768 <= d < 32768 -> s16 (d mod two64) = d.
Proof.
  intros d D. unfold s16. rewrite <- (Zplus_mod_idemp_l (d mod two64)). rewrite <- (Znumtheory.Zmod_div_mod two16 two64) by (try lia; exists (2 ^ 48); reflexivity).
  rewrite Zplus_mod_idemp_l. rewrite Z.mod_small by lia. lia.
Qed.
Lemma branch_iff : forall ops p k o x d, stands_for ops p -> znth ops k = Some o -> (exists i, znth (p_ins p) k = Some (x, i) /\ means o i /\ (i = DBra d \/ i = DSkip d)) ->
  x = Some (o_off o) /\ forall k', branch ops o = Ok k' <-> target false p (o_off o) d k'.
Proof.
  intros ops p k o x d S N (i & NI & M & B).
  assert (DD : -32768 <= d < 32768 /\ o_num o = d mod two64) by (destruct B as [-> | ->]; inversion M; subst; cbn; auto). destruct DD as [DD DN].
  destruct S as [ops l H|cf vl ops l len H S R LN].
  - exfalso. cbn [p_ins] in NI. destruct (Forall2_znth _ _ _ _ _ H) as [_ HZ]. destruct (HZ _ _ _ N NI) as [_ X]. apply X. exists d. exact B.
  - fold (pre cf) (post vl len) in *. set (F := pre cf ++ ops ++ post vl len) in *. cbn [p_ins] in NI.
    pose proof (zlen_nonneg _ l) as ZL. destruct (Forall2_znth _ _ _ _ _ H) as [LL HZ].
    (* the operation is one of the expression *)
    assert (K : zlen (pre cf) <= k < zlen (pre cf) + zlen ops /\ znth ops (k - zlen (pre cf)) = Some o /\ x = Some (o_off o)).
    { set (q := (if cf then [(@None Z, DCfa)] else [])) in *. assert (C : zlen q = zlen (pre cf)) by (subst q; destruct cf; reflexivity).
      pose proof (znth_range _ _ _ _ NI) as RG. rewrite !zlen_app in RG. destruct (Z_lt_ge_dec k (zlen q)) as [LT|GE].
      { exfalso. rewrite znth_app_l in NI by lia. subst q. destruct cf; [|cbn in LT; lia]. assert (k = 0) as -> by (cbn in LT; lia). injection NI as <- <-. destruct B; discriminate. }
      rewrite znth_app_r in NI by lia. destruct (Z_lt_ge_dec (k - zlen q) (zlen l)) as [LT|GE2].
      - rewrite znth_app_l in NI by lia. unfold F in N. rewrite znth_app_r in N by lia. rewrite znth_app_l in N by lia. rewrite <- C. split; [lia|]. rewrite C in *. split; [exact N|]. destruct (HZ _ _ _ N NI) as [_ X]. exact X.
      - exfalso. rewrite znth_app_r in NI by lia. destruct vl; [|cbn in RG; lia]. assert (Z0 : k - zlen q - zlen l = 0) by (cbn in RG; lia). rewrite Z0 in NI. injection NI as <- <-. destruct B; discriminate. }
    destruct K as (K & NO & XO). split; [exact XO|]. intros k'. rewrite (expr_target cf vl ops l len (o_off o) d k' H R).
    assert (ROF : 0 <= o_off o < len) by (rewrite Forall_forall in R; apply R; exact (znth_In _ _ _ _ NO)).
    unfold branch. rewrite DN, (s16_num d DD). set (t := o_off o + 3 + d). change (2 ^ 62) with 4611686018427387904 in LN.
    assert (SB : StronglySorted Z.lt (map o_off (ops ++ post vl len))).
    { destruct vl; cbn [post]; [rewrite map_app; apply sorted_snoc; [exact S|]; apply Forall_map; eapply Forall_impl; [|exact R]; cbn; intros; lia|rewrite app_nil_r; exact S]. }
    assert (BB : forall j b, zlen (pre cf) <= j -> znth F j = Some b -> 0 <= o_off b <= len).
    { intros j b J X. unfold F in X. rewrite znth_app_r in X by lia. apply znth_In in X. apply in_app_or in X. destruct X as [X|X]; [rewrite Forall_forall in R; specialize (R b X); lia|].
      destruct vl; [destruct X as [<-|[]]; cbn; lia|destruct X]. }
    assert (IN : inc F (zlen (pre cf)) (zlen F)).
    { intros a b oa ob A AB BU NA NB. unfold F in NA, NB. rewrite znth_app_r in NA, NB by lia. exact (sorted_inc _ SB (a - zlen (pre cf)) (b - zlen (pre cf)) _ _ ltac:(lia) NA NB). }
    assert (LF : zlen F = zlen (pre cf) + zlen ops + zlen (post vl len)) by (unfold F; rewrite !zlen_app; lia). pose proof (zlen_nonneg _ (post vl len)) as LP.
    assert (LC : zlen (pre cf) = if cf then 1 else 0) by (destruct cf; reflexivity).
    split.
    + destruct (bsearch _ _ _ _ _) as [i'|] eqn:BS; [|discriminate]. intros Q. injection Q as <-.
      pose proof (bsearch_sound _ _ _ _ _ _ BS) as (RI & o' & NI' & OF). exists o'. split; [exact NI'|].
      assert (KI : zlen (pre cf) <= i').
      { destruct cf; [|lia]. rewrite LC in *. destruct (Z.eq_dec i' 0) as [->|]; [|lia]. exfalso. assert (o' = Op 156 0 0 (two64 - 1)) by (unfold F in NI'; cbn in NI'; injection NI' as <-; reflexivity). subst o'. cbn [o_off] in OF. rewrite <- OF in BS.
        apply (bsearch_top _ (two64 - 1) F (zlen F) 0 ltac:(lia) ltac:(intros j b J X; pose proof (BB j b J X); lia) BS). }
      split; [|exact KI]. pose proof (BB i' o' KI NI') as OB. rewrite OF in OB |- *. unfold u64 in *. destruct (Z_lt_ge_dec t 0) as [TN|TP].
      * exfalso. replace t with (t + two64 + (-1) * two64) in OB by lia. rewrite Z.mod_add in OB by lia. rewrite Z.mod_small in OB by lia. lia.
      * apply Z.mod_small. lia.
    + intros (o' & NI' & OF & KI). pose proof (BB k' o' KI NI') as OB. rewrite OF in OB. fold t in OB, OF. replace (u64 t) with t by (unfold u64; rewrite Z.mod_small; lia).
      assert (RG : 0 <= k' < zlen F) by exact (znth_range _ _ _ _ NI').
      assert (BS : bsearch (Datatypes.S (length F)) t F 0 (zlen F) = Some k'); [|rewrite BS; reflexivity].
      destruct cf.
      * cbn iota in LC. rewrite LC in IN, KI. pose proof (zlen_nonneg _ ops). apply (bsearch_finds1 _ _ _ _ _ o'); [lia|unfold zlen; clear; lia|exact IN|lia|exact NI'|exact OF].
      * cbn iota in LC. rewrite LC in IN, KI. pose proof (zlen_nonneg _ ops). apply (bsearch_finds _ _ _ _ _ _ o'); [lia|lia|unfold zlen; clear; lia|exact IN|lia|exact NI'|exact OF].
Qed.
