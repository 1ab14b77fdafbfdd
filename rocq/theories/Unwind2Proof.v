(* The CFA and the value of a register as the unwinder computes them. *)
From Coq Require Import ZifyBool ZifyNat.
From Verif Require Import Base LebModel DwModel Slice LebProof CfiModel CfiSpec CfiProps LocModel EvalModel EvalSpec EvalProof Eval2Proof Eval3Proof Eval4Proof Eval5Proof EvalProps UnwindModel UnwindSpec UnwindProof.

Definition cfa_value (m : mach) (c : cfi) (fs : frame) : outcome Z := l <- cfa_ops c fs ;; eval_cfa m l.
Lemma steps_4096 : exists k, Z.to_nat 4096 = S (S (S (S k))).
Proof. exists (Z.to_nat 4092). vm_compute. reflexivity. Qed.

Section VALUE.
Variables (m : mach) (c : cfi) (e : env) (fs : frame) (same : bool) (t : rules).
Hypothesis FIT : fits m (c_c32 c) e.
Hypothesis SZ : zlen (c_mem c) < 2 ^ 62.
Hypothesis DS : c_dsize c <= zlen (c_mem c).
Hypothesis CR : cfa_reported c fs (t_cfa t).
Hypothesis RR : forall n, 0 <= n -> register_reported c same fs n (t_reg t n).
Hypothesis PL : plain_rules c t.
Let big := h_big m.

Lemma eval_bregx : forall fr cf r n, 0 <= r < two32 -> start m fr cf [Op 146 r (n mod two64) 0] = (x <- get_reg (h_ebl m) (h_regs m) r ;; Ok ((x + n) mod two64)).
Proof using.
  intros fr cf r n R. unfold start. destruct steps_4096 as [k ->]. cbn [run]. change (znth [Op 146 r (n mod two64) 0] 0) with (Some (Op 146 r (n mod two64) 0)).
  unfold step. cbn [o_atom o_num o_num2]. change (in_range 48 79 146) with false. change (in_range 8 17 146) with false. change (in_range 80 111 146) with false. change (in_range 112 143 146) with false.
  change (146 =? 3) with false. change (146 =? 241) with false. change (146 =? 144) with false. change (146 =? 146) with true. cbn iota.
  destruct (get_reg (h_ebl m) (h_regs m) r) as [x| | |]; cbn [obind]; try reflexivity. unfold push. change (256 <=? zlen []) with false. cbn iota. cbn [obind]. change (0 + 1) with 1.
  change (znth [Op 146 r (n mod two64) 0] 1) with (@None op). cbn [finish pop obind]. unfold u64. rewrite Zplus_mod_idemp_r. reflexivity.
Qed.
Lemma cfa_iff : forall x, cfa_value m c fs = Ok x <-> cfa_within big c e t x.
Proof using FIT SZ DS CR PL.
  intros x. unfold cfa_value, cfa_ops, cfa_within. destruct PL as [PC _]. destruct (t_cfa t) as [|r n|b|]; cbn [cfa_reported plain_cfa cfa_is] in *.
  - rewrite CR. cbn [obind rep_ops eval_cfa start]. split; [discriminate|intros []].
  - rewrite CR. cbn [obind rep_ops map]. unfold eval_cfa. rewrite eval_bregx by exact PC. destruct (get_reg (h_ebl m) (h_regs m) r) as [y| | |] eqn:G; cbn [obind].
    + apply (get_reg_iff m (c_c32 c) e FIT) in G; [|exact PC]. split; [intros Q; exists y; split; [exact G|congruence]|intros (z & V & ->); congruence].
    + split; [discriminate|intros (z & V & _)]. apply (get_reg_iff m (c_c32 c) e FIT) in V; [congruence|exact PC].
    + split; [discriminate|intros (z & V & _)]. apply (get_reg_iff m (c_c32 c) e FIT) in V; [congruence|exact PC].
    + split; [discriminate|intros (z & V & _)]. apply (get_reg_iff m (c_c32 c) e FIT) in V; [congruence|exact PC].
  - destruct CR as (p & -> & A & _). cbn [obind]. destruct PC as (l & EX).
    assert (K : forall l w, expression c b l -> (l <- (o <- rep_ops c false (Block p (zlen b) false) ;; Ok match o with Some l => l | None => [] end) ;; eval_cfa m l) = Ok w <-> yields_within e false big no_cfa (cfa_program b l) w).
    { intros l' w EX'. destruct (decode_expr c b l' p false false EX' A SZ) as (ops & -> & _ & SF). cbn [obind app] in *. rewrite app_nil_r in SF. unfold eval_cfa, cfa_program.
      apply (start_iff m (c_c32 c) e false (Err DWFL_E_LIBDW) no_cfa ops _ FIT); [intros y; split; [discriminate|intros []]|intros y []|exact SF]. }
    split; [intros H; exists l; split; [exact EX|]; apply (K l x EX), H|]. intros (l' & EX' & Y). apply (K l' x EX'), Y.
  - rewrite CR. cbn [obind]. split; [discriminate|intros []].
Qed.
Lemma cfa_word : forall x, cfa_within big c e t x -> word x.
Proof using FIT SZ DS CR PL.
  clear RR. intros x. unfold cfa_within. destruct (t_cfa t) as [|r n|b|] eqn:TC; cbn [cfa_is]; [intros []| |..|intros []].
  - intros (y & _ & ->). unfold word, is_u64. apply Z.mod_pos_bound. lia.
  - cbn [cfa_reported] in CR. intros (l & EX & Y). destruct CR as (p & _ & A & _). destruct (decode_expr c b l p false false EX A SZ) as (ops & _ & _ & SF). cbn [app] in SF. rewrite app_nil_r in SF.
    apply (within_words m (c_c32 c) e false (Err DWFL_E_LIBDW) no_cfa ops (cfa_program b l) x FIT); [intros z; split; [discriminate|intros []]|intros z []|exact SF|exact Y].
Qed.

(* dwarf_frame_register and the decoding together; the computation *)
Definition fetch (n : Z) : outcome (option (list op)) := r <- frame_register c same fs n ;; rep_ops c true r.
Definition compute (n : Z) (o : option (list op)) : outcome Z :=
  match o with None => get_reg (h_ebl m) (h_regs m) n | Some l => eval m (c_c32 c) (cfa_ops c fs) l end.
Definition gone (r : srule) : Prop := match r with Unspecified => same = false | Undefined => True | _ => False end.

Definition cfa_then (k : Z -> outcome Z) : outcome Z :=
  match cfa_value m c fs with Ok x => k x | Err _ => Err DWFL_E_LIBDW | UB => UB | Fuel => Fuel end.
Definition add_to (v x : Z) : Z := if v =? 0 then x else u64 (x + u64 v).
Lemma step_cfa : forall fr cf ops pc o s l, o_atom o = 156 -> step m fr cf ops pc o s l = match (x <- cf ;; push x s) with Ok s => Ok (pc + 1, s, true) | Err _ => Err DWFL_E_LIBDW | UB => UB | Fuel => Fuel end.
Proof using. intros fr cf ops pc [a n k o] s l E. cbn [o_atom] in E. subst a. reflexivity. Qed.
Lemma run_at : forall k fr cf ops pc s l, run (S k) m fr cf ops pc s l = match znth ops pc with None => finish m s l | Some o => ' (pc, s, l) <- step m fr cf ops pc o s l ;; run k m fr cf ops pc s l end.
Proof using. reflexivity. Qed.
Lemma eval_off : forall v, eval m (c_c32 c) (cfa_ops c fs) (Op 156 0 0 0 :: (if v =? 0 then [] else [Op 35 (u64 v) 0 0])) = cfa_then (fun x => read_word m (add_to v x)).
Proof using.
  intros v. unfold eval, cfa_then, add_to. fold (cfa_value m c fs). unfold start. destruct steps_4096 as [k ->].
  destruct (v =? 0); rewrite run_at; cbn [znth]; (match goal with |- context [znth ?l 0] => change (znth l 0) with (Some (Op 156 0 0 0)) end); cbn iota; rewrite step_cfa by reflexivity;
    (destruct (cfa_value m c fs) as [x| | |]; cbn [obind]; reflexivity).
Qed.
Lemma eval_val : forall v, eval m (c_c32 c) (cfa_ops c fs) (Op 156 0 0 0 :: (if v =? 0 then [] else [Op 35 (u64 v) 0 0]) ++ [Op 159 0 0 0]) = cfa_then (fun x => Ok (add_to v x)).
Proof using.
  intros v. unfold eval, cfa_then, add_to. fold (cfa_value m c fs). unfold start. destruct steps_4096 as [k ->].
  destruct (v =? 0); cbn [app]; rewrite run_at; (match goal with |- context [znth ?l 0] => change (znth l 0) with (Some (Op 156 0 0 0)) end); cbn iota; rewrite step_cfa by reflexivity;
    (destruct (cfa_value m c fs) as [x| | |]; cbn [obind]; reflexivity).
Qed.
Lemma eval_regx : forall r, eval m (c_c32 c) (cfa_ops c fs) [Op 144 r 0 0] = get_reg (h_ebl m) (h_regs m) r.
Proof using.
  intros r. unfold eval. fold (cfa_value m c fs). unfold start. destruct steps_4096 as [k ->]. rewrite run_at. change (znth [Op 144 r 0 0] 0) with (Some (Op 144 r 0 0)). cbn iota.
  match goal with |- context [step m ?fr ?cf ?ops 0 ?o [] false] => change (step m fr cf ops 0 o [] false) with (s <- (v <- get_reg (h_ebl m) (h_regs m) r ;; push v []) ;; Ok (0 + 1, s, false)) end.
  destruct (get_reg (h_ebl m) (h_regs m) r) as [x| | |]; cbn [obind]; reflexivity.
Qed.
Lemma then_iff : forall k v, cfa_then k = Ok v <-> exists x, cfa_within big c e t x /\ k x = Ok v.
Proof using FIT SZ DS CR PL.
  clear RR. intros k v. pose proof cfa_iff as CI. unfold cfa_then. destruct (cfa_value m c fs) as [x| | |].
  - split; [intros H; exists x; split; [apply CI; reflexivity|exact H]|]. intros (y & Y & H). apply CI in Y. injection Y as ->. exact H.
  - split; [discriminate|]. intros (y & Y & H). apply CI in Y. discriminate.
  - split; [discriminate|]. intros (y & Y & H). apply CI in Y. discriminate.
  - split; [discriminate|]. intros (y & Y & H). apply CI in Y. discriminate.
Qed.
Definition goal (n : Z) (rep : rep) : Prop := exists o, rep_ops c true rep = Ok o /\ (o = Some [] <-> gone (t_reg t n)) /\
  (o <> Some [] -> forall v, compute n o = Ok v <-> caller (yields_within e true big (cfa_within big c e t)) c e same (cfa_within big c e t) n (t_reg t n) v).
Lemma value_iff : forall n, 0 <= n < two32 -> exists o, fetch n = Ok o /\ (o = Some [] <-> gone (t_reg t n)) /\ (o <> Some [] -> forall v, compute n o = Ok v <-> caller_within big c e same t n v).
Proof using FIT SZ DS CR RR PL.
  intros n N. destruct (RR n ltac:(lia)) as (rep & FR & RM). unfold fetch, caller_within. rewrite FR. cbn [obind]. fold (goal n rep).
  pose proof (proj2 PL n) as PR. unfold frame_register in FR. replace (n <? 0) with false in FR by lia. pose proof (RM 0 ltac:(lia)) as RM0.
  assert (GR : forall r v, 0 <= r < two32 -> get_reg (h_ebl m) (h_regs m) r = Ok v <-> v_reg e r = Some v) by (intros; apply (get_reg_iff m (c_c32 c) e FIT); assumption).
  assert (BK : forall p k vl b, report_means c 0 (Block p k vl) = ByExpr b vl -> (exists l, expression c b l) -> 
     exists ops, rep_ops c true (Block p k vl) = Ok (Some ops) /\ ops <> [] /\ forall l v, expression c b l -> eval m (c_c32 c) (cfa_ops c fs) ops = Ok v <-> yields_within e true big (cfa_within big c e t) (reg_program b vl l) v).
  { intros p k vl b RB (l & EX). cbn [report_means] in RB. destruct ((0 <=? p) && (p + k <=? c_dsize c)) eqn:IN; [|discriminate]. injection RB as BB. 
    assert (BP : 0 < zlen b). { destruct EX as (xs & NE & _ & _ & -> & _). destruct xs as [|x xs]; [congruence|]. rewrite expr_cons. pose proof (op_bytes_pos x). pose proof (zlen_nonneg _ (LocSpec.expr_bytes xs)). lia. }
    assert (K0 : 0 <= k). { destruct (Z.ltb_spec k 0); [|lia]. exfalso. unfold zsub in BB. replace (Z.to_nat k) with O in BB by lia. cbn in BB. subst b. cbn in BP. lia. }
    assert (LB : zlen b = k) by (rewrite <- BB; apply zsub_length; lia).
    assert (A : at_ (c_mem c) p b) by (split; [lia|]; split; [lia|]; rewrite LB; exact BB).
    destruct (decode_expr c b l p true vl EX A SZ) as (ops & RO & NE & _). rewrite LB in RO. exists ops. split; [exact RO|]. split; [exact NE|]. intros l' v EX'.
    destruct (decode_expr c b l' p true vl EX' A SZ) as (ops' & RO' & _ & SF). rewrite LB, RO in RO'. injection RO' as <-. unfold eval. fold (cfa_value m c fs).
    apply (start_iff m (c_c32 c) e true (cfa_value m c fs) (cfa_within big c e t) ops (reg_program b vl l') FIT); [exact cfa_iff|exact cfa_word|exact SF]. }
  assert (ADD : forall v k, (forall x, 0 <= x < two64 -> add_to v x = (x + k) mod two64) -> forall x, cfa_within big c e t x -> add_to v x = (x + k) mod two64).
  { intros v k H x X. apply H. apply cfa_word in X. exact X. }
  assert (GS : report_means c 0 NoOps = found same 0 (t_reg t n) -> goal n NoOps).
  { clear FR RM RM0. intros R. exists None. split; [reflexivity|]. destruct (t_reg t n); cbn [found report_means] in R; try discriminate R; [destruct same eqn:ES; [|discriminate R]|].
    - split; [split; [discriminate|cbn [gone]; rewrite ES; discriminate]|]. intros _ v. cbn [caller compute]. rewrite (GR n v N). tauto.
    - split; [split; [discriminate|intros []]|]. intros _ v. cbn [caller compute]. apply GR, N. }
  assert (GU : report_means c 0 (Ops []) = found same 0 (t_reg t n) -> goal n (Ops [])).
  { clear FR RM RM0. intros R. exists (Some []). split; [reflexivity|]. split; [|congruence]. destruct (t_reg t n); cbn [found report_means eval_ops] in R; try discriminate R; [destruct same eqn:ES; [discriminate R|]|].
    - split; [intros _; exact ES|reflexivity].
    - split; [intros _; exact Logic.I|reflexivity]. }
  assert (SH : forall v x, eval_ops x None ((156, 0, 0) :: if v =? 0 then [] else [(35, u64 v, 0)]) = SavedAt (add_to v x)) by (intros v x; unfold add_to; destruct (v =? 0); reflexivity).
  assert (SV : forall v x, eval_ops x None ((156, 0, 0) :: (if v =? 0 then [] else [(35, u64 v, 0)]) ++ [(159, 0, 0)]) = ValueIs (add_to v x)) by (intros v x; unfold add_to; destruct (v =? 0); reflexivity).
  destruct (znth (f_regs fs) n) as [[]|].
  - injection FR as <-. destruct same; [apply GS|apply GU]; exact RM0.
  - injection FR as <-. apply GU, RM0.
  - injection FR as <-. apply GS, RM0.
  - injection FR as <-. cbn [report_means] in RM. exists (Some (Op 156 0 0 0 :: (if v =? 0 then [] else [Op 35 (u64 v) 0 0]))). split; [cbn [rep_ops map]; destruct (v =? 0); reflexivity|].
    split; [|]. 
    all: destruct (t_reg t n) as [| | |k|k|r|b|b]; cbn [found] in RM; try (destruct same; specialize (RM 0 ltac:(lia)); rewrite SH in RM; discriminate RM).
    { split; [discriminate|intros []]. }
    intros _ w. cbn [compute caller]. rewrite eval_off, then_iff. split; intros (x & X & Y); exists x; (split; [exact X|]).
    + rewrite <- (ADD v k) by (auto; intros y Y0; specialize (RM y Y0); rewrite SH in RM; congruence). apply (read_word_iff m (c_c32 c) e FIT); [|exact Y]. rewrite (ADD v k) by (auto; intros y Y0; specialize (RM y Y0); rewrite SH in RM; congruence). unfold word. apply Z.mod_pos_bound. lia.
    + rewrite (ADD v k) by (auto; intros y Y0; specialize (RM y Y0); rewrite SH in RM; congruence). apply (read_word_iff m (c_c32 c) e FIT); [unfold word; apply Z.mod_pos_bound; lia|exact Y].
  - injection FR as <-. cbn [report_means] in RM. exists (Some (Op 156 0 0 0 :: (if v =? 0 then [] else [Op 35 (u64 v) 0 0]) ++ [Op 159 0 0 0])). split; [cbn [rep_ops map]; destruct (v =? 0); reflexivity|].
    split; [|]. 
    all: destruct (t_reg t n) as [| | |k|k|r|b|b]; cbn [found] in RM; try (destruct same; specialize (RM 0 ltac:(lia)); rewrite SV in RM; discriminate RM).
    { split; [discriminate|intros []]. }
    intros _ w. cbn [compute caller]. rewrite eval_val, then_iff.
    assert (AD : forall x, cfa_within big c e t x -> add_to v x = (x + k) mod two64) by (apply ADD; intros y Y0; specialize (RM y Y0); rewrite SV in RM; congruence).
    split; intros (x & X & Y); exists x; (split; [exact X|]); specialize (AD x X); congruence.
  - injection FR as <-. cbn [report_means eval_ops] in RM0. exists (Some [Op 144 (u64 v) 0 0]). split; [reflexivity|].
    split; [|]. 
    all: destruct (t_reg t n) as [| | |k|k|r|b|b]; cbn [found] in RM0; try (destruct same; discriminate RM0).
    { split; [discriminate|intros []]. }
    intros _ w. cbn [compute caller plain_rule] in *. injection RM0 as RV. rewrite eval_regx, RV. apply GR, PR.
  - match type of FR with obind ?g _ = _ => destruct g as [[k q]| | |] end; cbn [obind] in FR; try discriminate. injection FR as <-.
    assert (BR : exists b, t_reg t n = Expression b /\ report_means c 0 (Block q k false) = ByExpr b false).
    { clear BK GS GU PR. destruct (t_reg t n) as [| | |x|x|r|b|b]; cbn [found] in RM0; try (exists b; split; [reflexivity|exact RM0]); exfalso; cbn [report_means] in RM0; destruct (_ && _) in RM0; try destruct same; discriminate RM0. }
    destruct BR as (b & TR & RB). unfold goal. rewrite TR in PR |- *. destruct (BK q k false b RB PR) as (ops & RO & NE & EV). exists (Some ops). split; [exact RO|]. split; [split; [intros Q; injection Q as ->; congruence|intros []]|].
    intros _ w. cbn [compute caller]. destruct PR as (l & EX). split; [intros H; exists l; split; [exact EX|apply (EV l w EX), H]|intros (l' & EX' & Y); apply (EV l' w EX'), Y].
  - match type of FR with obind ?g _ = _ => destruct g as [[k q]| | |] end; cbn [obind] in FR; try discriminate. injection FR as <-.
    assert (BR : exists b, t_reg t n = ValExpression b /\ report_means c 0 (Block q k true) = ByExpr b true).
    { clear BK GS GU PR. destruct (t_reg t n) as [| | |x|x|r|b|b]; cbn [found] in RM0; try (exists b; split; [reflexivity|exact RM0]); exfalso; cbn [report_means] in RM0; destruct (_ && _) in RM0; try destruct same; discriminate RM0. }
    destruct BR as (b & TR & RB). unfold goal. rewrite TR in PR |- *. destruct (BK q k true b RB PR) as (ops & RO & NE & EV). exists (Some ops). split; [exact RO|]. split; [split; [intros Q; injection Q as ->; congruence|intros []]|].
    intros _ w. cbn [compute caller]. destruct PR as (l & EX). split; [intros H; exists l; split; [exact EX|apply (EV l w EX), H]|intros (l' & EX' & Y); apply (EV l' w EX'), Y].
  - injection FR as <-. destruct same; [apply GS|apply GU]; exact RM0.
Qed.

(* ---------------------------------------------------------------- nothing undefined *)
Hypothesis RD : rules_defined big c e t.
Lemma start_good' : forall fr (cfao : outcome Z) (cfa cfa' : Z -> Prop) ops p, (forall x, cfao = Ok x <-> cfa x) -> (forall x, cfa x -> word x) -> (forall x, cfa x -> cfa' x) -> stands_for ops p -> good cfao ->
  expr_defined e fr big cfa' p -> good (start m (if fr then Some (c_c32 c) else None) cfao ops).
Proof using FIT.
  intros fr cfao cfa cfa' ops p CF CW CI SF G D. apply (start_good m (c_c32 c) e fr cfao cfa ops p FIT CF CW SF G).
  intros n k s l x i ST. apply (D n k s l x i). eapply steps_weak; [|exact ST]. intros a b (H & _). apply (goes_weak e cfa cfa' p a b CI H).
Qed.
Lemma get_reg_good : forall r, good (get_reg (h_ebl m) (h_regs m) r).
Proof using FIT. intros r. destruct FIT as (RO & _). unfold get_reg. rewrite (reg_get_known _ _ _ RO). cbn [obind]. destruct (known _ _ _); exact Logic.I. Qed.
Lemma cfa_good : good (cfa_value m c fs).
Proof using FIT SZ DS CR PL RD.
  unfold cfa_value, cfa_ops. destruct PL as [PC _]. destruct RD as [RC _]. destruct (t_cfa t) as [|r n|b|]; cbn [cfa_reported plain_cfa] in *.
  - rewrite CR. exact Logic.I.
  - rewrite CR. cbn [obind rep_ops map]. unfold eval_cfa. rewrite eval_bregx by exact PC. apply good_bind; [apply get_reg_good|intros; exact Logic.I].
  - destruct CR as (p & -> & A & _). cbn [obind]. destruct PC as (l & EX). destruct (decode_expr c b l p false false EX A SZ) as (ops & -> & _ & SF). cbn [obind app] in *. rewrite app_nil_r in SF. unfold eval_cfa.
    apply (start_good' false (Err DWFL_E_LIBDW) no_cfa no_cfa ops (cfa_program b l)); [intros x; split; [discriminate|intros []]|intros x []|auto|exact SF|exact Logic.I|exact (RC l EX)].
  - rewrite CR. exact Logic.I.
Qed.
Lemma cfa_within_of : forall x, cfa_within big c e t x -> cfa_of c e t x.
Proof using.
  clear CR RR PL RD. intros x. unfold cfa_within, cfa_of. destruct (t_cfa t) as [|r n|b|]; cbn [cfa_is]; auto. intros (l & EX & Y). exists l. split; [exact EX|]. eapply within_yields; [|exact Y]. intros y [].
Qed.
Lemma compute_good : forall n o, 0 <= n < two32 -> fetch n = Ok o -> good (compute n o).
Proof using FIT SZ DS CR RR PL RD.
  intros n o N F. unfold compute. destruct o as [ops|]; [|apply get_reg_good]. destruct ops as [|o0 ops0] eqn:EO; [exact Logic.I|]. rewrite <- EO in *. clear EO o0 ops0.
  destruct (RR n ltac:(lia)) as (rep & FR & RM). unfold fetch in F. rewrite FR in F. cbn [obind] in F. unfold frame_register in FR. replace (n <? 0) with false in FR by lia. pose proof (RM 0 ltac:(lia)) as RM0. pose proof (proj2 PL n) as PR. pose proof (proj2 RD n) as RN.
  assert (BK : forall p k vl b, Block p k vl = rep -> report_means c 0 (Block p k vl) = ByExpr b vl -> (exists l, expression c b l) -> (forall l, expression c b l -> expr_defined e true big (cfa_of c e t) (reg_program b vl l)) -> good (eval m (c_c32 c) (cfa_ops c fs) ops)).
  { intros p k vl b <- RB (l & EX) D. cbn [report_means] in RB. destruct ((0 <=? p) && (p + k <=? c_dsize c)) eqn:IN; [|discriminate]. injection RB as BB. 
    assert (BP : 0 < zlen b). { destruct EX as (xs & NE & _ & _ & -> & _). destruct xs as [|x xs]; [congruence|]. rewrite expr_cons. pose proof (op_bytes_pos x). pose proof (zlen_nonneg _ (LocSpec.expr_bytes xs)). lia. }
    assert (K0 : 0 <= k). { destruct (Z.ltb_spec k 0); [|lia]. exfalso. unfold zsub in BB. replace (Z.to_nat k) with O in BB by lia. cbn in BB. subst b. cbn in BP. lia. }
    assert (LB : zlen b = k) by (rewrite <- BB; apply zsub_length; lia).
    assert (A : at_ (c_mem c) p b) by (split; [lia|]; split; [lia|]; rewrite LB; exact BB).
    destruct (decode_expr c b l p true vl EX A SZ) as (ops' & RO & NE & SF). rewrite LB in RO. rewrite RO in F. injection F as ->. unfold eval. fold (cfa_value m c fs).
    apply (start_good' true (cfa_value m c fs) (cfa_within big c e t) (cfa_of c e t) ops (reg_program b vl l)); [exact cfa_iff|exact cfa_word|exact cfa_within_of|exact SF|exact cfa_good|exact (D l EX)]. }
  assert (CT : forall k, (forall x, good (k x)) -> good (cfa_then k)).
  { intros k GK. pose proof cfa_good as CG. unfold cfa_then. destruct (cfa_value m c fs); [apply GK|exact Logic.I|exact CG|exact CG]. }
  assert (RW : forall a, good (read_word m a)). { intros a. unfold read_word. destruct (h_read m) as [rd|]; [destruct (rd a)|]; exact Logic.I. }
  destruct (znth (f_regs fs) n) as [[]|].
  - injection FR as <-. destruct same; discriminate F || (injection F as <-; exact Logic.I).
  - injection FR as <-. injection F as <-. exact Logic.I.
  - injection FR as <-. discriminate F.
  - injection FR as <-. assert (ops = Op 156 0 0 0 :: (if v =? 0 then [] else [Op 35 (u64 v) 0 0])) as -> by (cbn [rep_ops map] in F; destruct (v =? 0); injection F as <-; reflexivity). rewrite eval_off. apply CT. intros x. apply RW.
  - injection FR as <-. assert (ops = Op 156 0 0 0 :: (if v =? 0 then [] else [Op 35 (u64 v) 0 0]) ++ [Op 159 0 0 0]) as -> by (cbn [rep_ops map] in F; destruct (v =? 0); injection F as <-; reflexivity). rewrite eval_val. apply CT. intros x. exact Logic.I.
  - injection FR as <-. injection F as <-. rewrite eval_regx. apply get_reg_good.
  - match type of FR with obind ?g _ = _ => destruct g as [[k q]| | |] end; cbn [obind] in FR; try discriminate. injection FR as <-.
    assert (BR : exists b, t_reg t n = Expression b /\ report_means c 0 (Block q k false) = ByExpr b false).
    { clear BK PR RN. destruct (t_reg t n) as [| | |x|x|r|b|b]; cbn [found] in RM0; try (exists b; split; [reflexivity|exact RM0]); exfalso; cbn [report_means] in RM0; destruct (_ && _) in RM0; try destruct same; discriminate RM0. }
    destruct BR as (b & TR & RB). rewrite TR in PR, RN. exact (BK q k false b eq_refl RB PR RN).
  - match type of FR with obind ?g _ = _ => destruct g as [[k q]| | |] end; cbn [obind] in FR; try discriminate. injection FR as <-.
    assert (BR : exists b, t_reg t n = ValExpression b /\ report_means c 0 (Block q k true) = ByExpr b true).
    { clear BK PR RN. destruct (t_reg t n) as [| | |x|x|r|b|b]; cbn [found] in RM0; try (exists b; split; [reflexivity|exact RM0]); exfalso; cbn [report_means] in RM0; destruct (_ && _) in RM0; try destruct same; discriminate RM0. }
    destruct BR as (b & TR & RB). rewrite TR in PR, RN. exact (BK q k true b eq_refl RB PR RN).
  - injection FR as <-. destruct same; discriminate F || (injection F as <-; exact Logic.I).
Qed.
End VALUE.
