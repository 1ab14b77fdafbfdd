(* The unwinders of the backends. *)
From Coq Require Import ZifyBool ZifyNat.
From Verif Require Import Base EvalModel EvalSpec EvalProof UnwindModel Unwind3Proof WalkModel WalkSpec.

Lemma set_new : forall b g r v, regs_ok b g -> has_reg b r -> 0 <= v < two64 -> exists g', reg_set b g r v = Ok (Some g') /\ regs_ok b g' /\
  forall n, known b g' n = if match b_regno b n, b_regno b r with Some k', Some k => k' =? k | _, _ => false end then Some (cut b v) else known b g n.
Proof.
  intros b g r v RO (k & K & KL) V. pose proof (reg_set_ok b g r v RO V) as X. rewrite K in X |- *. replace (b_nregs b <=? k) with false in X by lia. exact X.
Qed.
Lemma new_ok : forall b g, regs_ok b g -> regs_ok b (new_regs b) /\ forall r, known b (new_regs b) r = None.
Proof. intros b g (N & _ & _ & _ & _ & NN). apply new_regs_ok; assumption. Qed.
Lemma cut_id : forall b v, 0 <= v < (if b_class32 b then two32 else two64) -> cut b v = v.
Proof. intros b v V. unfold cut. destruct (b_class32 b); [apply Z.mod_small; exact V|reflexivity]. Qed.
Lemma same_reg : forall b r, has_reg b r -> match b_regno b r, b_regno b r with Some k', Some k => k' =? k | _, _ => false end = true.
Proof. intros b r (k & K & _). rewrite K. apply Z.eqb_refl. Qed.
Lemma other_reg : forall b n r, b_regno b n <> b_regno b r -> match b_regno b n, b_regno b r with Some k', Some k => k' =? k | _, _ => false end = false.
Proof. intros b n r NE. destruct (b_regno b n), (b_regno b r); try reflexivity. destruct (Z.eqb_spec z z0); [congruence|reflexivity]. Qed.
Lemma other_reg' : forall b n r, b_regno b n <> b_regno b r -> match b_regno b r, b_regno b n with Some k', Some k => k' =? k | _, _ => false end = false.
Proof. intros b n r NE. apply other_reg. congruence. Qed.
Lemma or0_words : forall b rd a, words b rd -> 0 <= or0 (rd a) < (if b_class32 b then two32 else two64).
Proof. intros b rd a W. destruct (rd a) as [v|] eqn:E; cbn [or0]; [exact (W a v E)|destruct (b_class32 b); lia]. Qed.
Lemma words64 : forall b v, 0 <= v < (if b_class32 b then two32 else two64) -> 0 <= v < two64.
Proof. intros b v V. destruct (b_class32 b); lia. Qed.

Definition fit (b : ebl) (v : Z) : Prop := 0 <= v < if b_class32 b then two32 else two64.
Lemma set2 : forall b g r1 v1 r2 v2, regs_ok b g -> has_reg b r1 -> has_reg b r2 -> b_regno b r1 <> b_regno b r2 -> fit b v1 -> fit b v2 ->
  exists g1 g2, reg_set b (new_regs b) r1 v1 = Ok (Some g1) /\ reg_set b g1 r2 v2 = Ok (Some g2) /\ regs_ok b g2 /\ exactly b g2 [(r1, v1); (r2, v2)].
Proof.
  intros b g r1 v1 r2 v2 RO H1 H2 NE F1 F2. destruct (new_ok b g RO) as [RN KN]. destruct (set_new b _ r1 v1 RN H1 (words64 _ _ F1)) as (g1 & E1 & R1 & K1). destruct (set_new b g1 r2 v2 R1 H2 (words64 _ _ F2)) as (g2 & E2 & R2 & K2).
  exists g1, g2. split; [exact E1|]. split; [exact E2|]. split; [exact R2|]. split.
  - intros r v [Q|[Q|[]]]; injection Q as <- <-.
    + rewrite K2, (other_reg b r1 r2 NE), K1, (same_reg b r1 H1), (cut_id b v1 F1). reflexivity.
    + rewrite K2, (same_reg b r2 H2), (cut_id b v2 F2). reflexivity.
  - intros n D. rewrite K2, (other_reg b n r2) by (apply (D r2 v2); right; left; reflexivity). rewrite K1, (other_reg b n r1) by (apply (D r1 v1); left; reflexivity). apply KN.
Qed.
Lemma set3 : forall b g r1 v1 r2 v2 r3 v3, regs_ok b g -> has_reg b r1 -> has_reg b r2 -> has_reg b r3 -> b_regno b r1 <> b_regno b r2 -> b_regno b r1 <> b_regno b r3 -> b_regno b r2 <> b_regno b r3 ->
  fit b v1 -> fit b v2 -> fit b v3 ->
  exists g1 g2 g3, reg_set b (new_regs b) r1 v1 = Ok (Some g1) /\ reg_set b g1 r2 v2 = Ok (Some g2) /\ reg_set b g2 r3 v3 = Ok (Some g3) /\ regs_ok b g3 /\ exactly b g3 [(r1, v1); (r2, v2); (r3, v3)].
Proof.
  intros b g r1 v1 r2 v2 r3 v3 RO H1 H2 H3 N12 N13 N23 F1 F2 F3. destruct (set2 b g r1 v1 r2 v2 RO H1 H2 N12 F1 F2) as (g1 & g2 & E1 & E2 & R2 & X2 & Y2). destruct (set_new b g2 r3 v3 R2 H3 (words64 _ _ F3)) as (g3 & E3 & R3 & K3).
  exists g1, g2, g3. split; [exact E1|]. split; [exact E2|]. split; [exact E3|]. split; [exact R3|]. split.
  - intros r v [Q|[Q|[Q|[]]]]; injection Q as <- <-.
    + rewrite K3, (other_reg b r1 r3 N13). apply X2. left. reflexivity.
    + rewrite K3, (other_reg b r2 r3 N23). apply X2. right. left. reflexivity.
    + rewrite K3, (same_reg b r3 H3), (cut_id b v3 F3). reflexivity.
  - intros n D. rewrite K3, (other_reg b n r3) by (apply (D r3 v3); right; right; left; reflexivity). apply Y2. intros r v [Q|[Q|[]]]; injection Q as <- <-; [apply (D r1 v1); left|apply (D r2 v2); right; left]; reflexivity.
Qed.

Section BACK.
Variables (b : ebl) (rd : Z -> option Z) (g : regs) (pc : Z).
Hypothesis RO : regs_ok b g.
Hypothesis WD : words b rd.
Lemma x86_64_ok : b_class32 b = false -> has_reg b 6 -> has_reg b 7 -> b_regno b 6 <> b_regno b 7 ->
  exists o, x86_64_unwind b (Some rd) pc g = Ok o /\
  match o with
  | Some (g', p, s) => exists fp ret, known b g 6 = Some fp /\ fp <> 0 /\ rd ((fp + 8) mod two64) = Some ret /\
      value_or_0 (known b g 7) < (fp + 16) mod two64 /\ p = Some ret /\ s = false /\
      exactly b g' [(6, value_or_0 (rd fp)); (7, (fp + 16) mod two64)] /\ regs_ok b g'
  | None => forall fp ret, known b g 6 = Some fp -> fp <> 0 -> rd ((fp + 8) mod two64) = Some ret -> (fp + 16) mod two64 <= value_or_0 (known b g 7)
  end.
Proof using RO WD.
  intros C H6 H7 NE. unfold x86_64_unwind. rewrite (reg_get_known _ _ _ RO). cbn [obind]. destruct (known b g 6) as [fp|] eqn:K6; [|exists None; split; [reflexivity|discriminate]].
  pose proof (known_word _ _ _ _ RO K6) as WF. unfold word in WF. destruct (Z.eqb_spec fp 0) as [Z0|NZ]; [exists None; split; [reflexivity|]; intros f r Q; congruence|].
  rewrite (reg_get_known _ _ _ RO). cbn [obind]. unfold read_mem. cbn [obind]. replace (u64 fp) with fp by (unfold u64; rewrite Z.mod_small; lia).
  destruct (rd (u64 (fp + 8))) as [ret|] eqn:R; [|exists None; split; [reflexivity|]; intros f r Q; injection Q as <-; fold (u64 (fp + 8)); congruence].
  assert (WU : 0 <= u64 (fp + 16) < two64) by (apply Z.mod_pos_bound; lia).
  destruct (set2 b g 6 (or0 (rd fp)) 7 (u64 (fp + 16)) RO H6 H7 NE (or0_words b rd fp WD)) as (g1 & g2 & E1 & E2 & R2 & X); [unfold fit; rewrite C; exact WU|]. rewrite E1. cbn [obind]. rewrite E2. cbn [obind].
  destruct (u64 (fp + 16) <=? or0 (known b g 7)) eqn:L.
  - exists None. split; [reflexivity|]. intros f r Q _ _. injection Q as <-. fold (u64 (fp + 16)). change value_or_0 with or0. lia.
  - eexists. split; [reflexivity|]. exists fp, ret. fold (u64 (fp + 16)). change value_or_0 with or0. split; [reflexivity|]. split; [exact NZ|]. split; [exact R|]. split; [lia|]. auto.
Qed.
Lemma i386_ok : b_class32 b = true -> has_reg b 4 -> has_reg b 5 -> b_regno b 4 <> b_regno b 5 ->
  exists o, i386_unwind b (Some rd) pc g = Ok o /\
  let good sp fp ret fp' := known b g 4 = Some sp /\ known b g 5 = Some fp /\ sp <> 0 /\ sp <= fp /\ rd ((fp + 4) mod two64) = Some ret /\ ret <> 0 /\ rd fp = Some fp' /\ (fp + 8) mod two64 < fp' in
  match o with
  | Some (g', p, s) => exists sp fp ret fp', good sp fp ret fp' /\ p = Some ret /\ s = false /\
      exactly b g' [(4, (fp + 8) mod two64); (5, fp')] /\ regs_ok b g'
  | None => forall sp fp ret fp', ~ good sp fp ret fp'
  end.
Proof using RO WD.
  intros C H4 H5 NE. unfold i386_unwind. rewrite (reg_get_known _ _ _ RO). cbn [obind]. destruct (known b g 4) as [sp|] eqn:K4; [|exists None; split; [reflexivity|]; intros sp fp ret fp' (Q & _); discriminate].
  rewrite (reg_get_known _ _ _ RO). cbn [obind]. destruct (known b g 5) as [fp|] eqn:K5; [|exists None; split; [reflexivity|]; intros sp' fp ret fp' (_ & Q & _); discriminate].
  pose proof (known_word _ _ _ _ RO K5) as WF. pose proof (known_word _ _ _ _ RO K4) as WS. unfold word in WF, WS.
  destruct ((fp =? 0) || (sp =? 0) || (fp <? sp)) eqn:T. { exists None. split; [reflexivity|]. intros s f r f' (Q1 & Q2 & A & B & _). injection Q1 as <-. injection Q2 as <-. lia. }
  unfold read_mem. cbn [obind]. replace (u64 fp) with fp by (unfold u64; rewrite Z.mod_small; lia).
  destruct (rd (u64 (fp + 4))) as [ret|] eqn:R; [|exists None; split; [reflexivity|]; intros s f r f' (_ & Q & _ & _ & X & _); injection Q as <-; fold (u64 (fp + 4)) in X; congruence].
  destruct (Z.eqb_spec ret 0) as [Z0|NZ]; [exists None; split; [reflexivity|]; intros s f r f' (_ & Q & _ & _ & X & Y & _); injection Q as <-; fold (u64 (fp + 4)) in X; congruence|].
  destruct (rd fp) as [fp'|] eqn:R2; [|exists None; split; [reflexivity|]; intros s f r f' (_ & Q & _ & _ & _ & _ & X & _); injection Q as <-; congruence].
  assert (WU : 0 <= u64 (fp + 8) < two64) by (apply Z.mod_pos_bound; lia). pose proof (WD _ _ R2) as W2. rewrite C in W2.
  destruct ((fp' =? 0) || (fp' <=? u64 (fp + 8))) eqn:T2. { exists None. split; [reflexivity|]. intros s f r f' (_ & Q & _ & _ & _ & _ & X & Y). injection Q as <-. fold (u64 (fp + 8)) in Y. rewrite R2 in X. injection X as <-. lia. }
  destruct (set2 b g 4 (u64 (fp + 8)) 5 fp' RO H4 H5 NE) as (g1 & g2 & E1 & E2 & RR & X); [unfold fit; rewrite C; lia|unfold fit; rewrite C; lia|]. rewrite E1. cbn [obind]. rewrite E2. cbn [obind].
  eexists. split; [reflexivity|]. exists sp, fp, ret, fp'. fold (u64 (fp + 8)). split; [|auto]. split; [reflexivity|]. split; [reflexivity|]. split; [lia|]. split; [lia|]. split; [exact R|]. split; [exact NZ|]. split; [exact R2|lia].
Qed.
Lemma ppc64_ok : b_class32 b = false -> has_reg b 1 -> has_reg b 65 -> b_regno b 1 <> b_regno b 65 ->
  exists o, ppc64_unwind b (Some rd) pc g = Ok o /\
  let sp := value_or_0 (known b g 1) in let sp' := value_or_0 (rd sp) in
  match o with
  | Some (g', p, s) => exists lr, known b g 65 = Some lr /\ lr <> 0 /\ sp < sp' /\ p = Some lr /\ s = false /\
      exactly b g' [(1, sp'); (65, value_or_0 (rd ((sp' + 16) mod two64)))] /\ regs_ok b g'
  | None => forall lr, known b g 65 = Some lr -> lr <> 0 -> sp' <= sp
  end.
Proof using RO WD.
  intros C H1 H65 NE. unfold ppc64_unwind. rewrite (reg_get_known _ _ _ RO). cbn [obind]. rewrite (reg_get_known _ _ _ RO). cbn [obind]. destruct (known b g 65) as [lr|] eqn:K; [|exists None; split; [reflexivity|discriminate]].
  destruct (Z.eqb_spec lr 0) as [Z0|NZ]; [exists None; split; [reflexivity|]; cbv zeta; intros l Q; congruence|]. unfold read_mem. cbn [obind].
  assert (WS : 0 <= or0 (known b g 1) < two64). { destruct (known b g 1) as [s|] eqn:K1; cbn [or0]; [exact (known_word _ _ _ _ RO K1)|lia]. } replace (u64 (or0 (known b g 1))) with (or0 (known b g 1)) by (unfold u64; rewrite Z.mod_small; lia).
  set (sp := or0 (known b g 1)) in *. set (sp' := or0 (rd sp)) in *. fold (u64 (sp' + 16)). change value_or_0 with or0. fold sp. fold sp'. cbv zeta.
  destruct (set2 b g 1 sp' 65 (or0 (rd (u64 (sp' + 16)))) RO H1 H65 NE (or0_words b rd sp WD) (or0_words b rd _ WD)) as (g1 & g2 & E1 & E2 & RR & X). unfold try_set. rewrite E1. cbn [obind]. rewrite E2. cbn [obind].
  destruct (sp' <=? sp) eqn:L; [exists None; split; [reflexivity|]; intros; lia|]. eexists. split; [reflexivity|]. exists lr. split; [reflexivity|]. split; [exact NZ|]. split; [lia|]. auto.
Qed.
Lemma aarch64_ok : b_class32 b = false -> has_reg b 29 -> has_reg b 30 -> has_reg b 31 -> b_regno b 30 <> b_regno b 29 -> b_regno b 30 <> b_regno b 31 -> b_regno b 29 <> b_regno b 31 ->
  exists o, aarch64_unwind b (Some rd) pc g = Ok o /\
  let fp := value_or_0 (known b g 29) in let sp := value_or_0 (known b g 31) in
  match o with
  | Some (g', p, s) => exists lr, known b g 30 = Some lr /\ lr <> 0 /\ (fp = 0 \/ sp < (fp + 16) mod two64) /\ p = Some lr /\ s = false /\
      exactly b g' [(30, value_or_0 (rd ((fp + 8) mod two64))); (29, value_or_0 (rd fp)); (31, (fp + 16) mod two64)] /\ regs_ok b g'
  | None => forall lr, known b g 30 = Some lr -> lr <> 0 -> fp <> 0 /\ (fp + 16) mod two64 <= sp
  end.
Proof using RO WD.
  intros C H29 H30 H31 N1 N2 N3. unfold aarch64_unwind. rewrite (reg_get_known _ _ _ RO). cbn [obind]. destruct (known b g 30) as [lr|] eqn:K; [|exists None; split; [reflexivity|]; intros; discriminate].
  destruct (Z.eqb_spec lr 0) as [Z0|NZ]; [exists None; split; [reflexivity|]; cbv zeta; intros l Q; congruence|]. rewrite (reg_get_known _ _ _ RO). cbn [obind]. rewrite (reg_get_known _ _ _ RO). cbn [obind]. unfold read_mem. cbn [obind].
  assert (WS : 0 <= or0 (known b g 29) < two64). { destruct (known b g 29) as [s|] eqn:K1; cbn [or0]; [exact (known_word _ _ _ _ RO K1)|lia]. } replace (u64 (or0 (known b g 29))) with (or0 (known b g 29)) by (unfold u64; rewrite Z.mod_small; lia).
  change value_or_0 with or0. set (fp := or0 (known b g 29)) in *. set (sp := or0 (known b g 31)) in *. fold (u64 (fp + 16)). fold (u64 (fp + 8)). cbv zeta.
  assert (WU : 0 <= u64 (fp + 16) < two64) by (apply Z.mod_pos_bound; lia).
  destruct (set3 b g 30 (or0 (rd (u64 (fp + 8)))) 29 (or0 (rd fp)) 31 (u64 (fp + 16)) RO H30 H29 H31 N1 N2 N3 (or0_words b rd _ WD) (or0_words b rd _ WD)) as (g1 & g2 & g3 & E1 & E2 & E3 & RR & X); [unfold fit; rewrite C; exact WU|].
  unfold try_set. rewrite E1. cbn [obind]. rewrite E2. cbn [obind]. rewrite E3. cbn [obind].
  destruct ((fp =? 0) || (sp <? u64 (fp + 16))) eqn:L; [|exists None; split; [reflexivity|]; intros; lia]. eexists. split; [reflexivity|]. exists lr. split; [reflexivity|]. split; [exact NZ|]. split; [lia|]. auto.
Qed.
End BACK.

(* a measure that grows below a bound makes every chain finite *)
Lemma grows_finite : forall (step : Z -> regs -> outcome back) (P : regs -> Prop) (f : regs -> Z) (bound : Z),
  (forall pc g g' p x, step pc g = Ok (Some (g', p, x)) -> P g -> P g' /\ f g < f g' <= bound) ->
  forall s : nat -> regs, P (s O) -> (forall i, exists pc p x, step pc (s i) = Ok (Some (s (S i), p, x))) -> False.
Proof.
  intros step P f bound H s P0 ST. assert (G : forall i, P (s i) /\ f (s O) + Z.of_nat i <= f (s i)).
  { induction i as [|i [Pi Li]]; [split; [exact P0|lia]|]. destruct (ST i) as (pc & p & x & E). destruct (H _ _ _ _ _ E Pi). split; [assumption|lia]. }
  destruct (G (Z.to_nat (Z.max 0 (bound - f (s O) + 1)))) as [Pi Li]. destruct (ST (Z.to_nat (Z.max 0 (bound - f (s O) + 1)))) as (pc & p & x & E). destruct (H _ _ _ _ _ E Pi). lia.
Qed.
