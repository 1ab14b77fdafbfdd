(* One operation of the evaluator is one instruction of the stack machine. *)
From Coq Require Import ZifyBool ZifyNat.
From Verif Require Import Base DwModel Slice LebProof LocModel EvalModel EvalSpec EvalProof.

Lemma push_iff : forall v s r, push v s = Ok r <-> r = v :: s /\ zlen r <= 256.
Proof. intros v s r. unfold push. destruct (256 <=? zlen s) eqn:E; split; [discriminate|intros [-> H]; rewrite zlen_cons in H; lia|intros H; injection H as <-; rewrite zlen_cons; split; [reflexivity|lia]|intros [-> H]; reflexivity]. Qed.
Lemma next_iff : forall (k : Z) (l : bool) (x : outcome (list Z)) k' s' l',
  (s <- x ;; Ok (k + 1, s, l)) = Ok (k', s', l') <-> k' = k + 1 /\ l' = l /\ x = Ok s'.
Proof. intros. destruct x as [s| | |]; cbn [obind]; split; intros H; try discriminate; try (destruct H as (_ & _ & H); discriminate). - injection H as <- <- <-. auto. - destruct H as (-> & -> & H). injection H as ->. reflexivity. Qed.

Lemma le_value_app : forall a b, le_value (a ++ b) = le_value a + 256 ^ zlen a * le_value b.
Proof. induction a as [|x a IH]; intros b; [cbn [app le_value]; change (256 ^ zlen []) with 1; lia|]. cbn [app le_value]. rewrite IH, zlen_cons, Z.pow_add_r by (pose proof (zlen_nonneg _ a); lia). lia. Qed.
Lemma zlen_part : forall (b : bytes) n, 0 <= n <= zlen b -> exists x y : bytes, b = x ++ y /\ zlen x = n.
Proof. intros b n H. exists (firstn (Z.to_nat n) b), (skipn (Z.to_nat n) b). split; [symmetry; apply firstn_skipn|]. unfold zlen in *. rewrite firstn_length. lia. Qed.

Section STEP.
Variables (m : mach) (c32 : bool) (e : env) (frame : bool).
Hypothesis FIT : fits m c32 e.
Let fr : option bool := if frame then Some c32 else None.

Lemma W64 : v_width e = 64. Proof. destruct FIT as (_ & _ & H & _). exact H. Qed.
Lemma get_reg_iff : forall r v, 0 <= r < two32 -> get_reg (h_ebl m) (h_regs m) r = Ok v <-> v_reg e r = Some v.
Proof.
  intros r v R. destruct FIT as (RO & VR & _). unfold get_reg. replace (u32 r) with r by (unfold u32; rewrite Z.mod_small; lia). rewrite (reg_get_known _ _ _ RO). cbn [obind].
  rewrite (VR r R). destruct (known _ _ r); split; intros H; try discriminate; injection H as ->; reflexivity.
Qed.
Lemma get_reg_ub : forall r, get_reg (h_ebl m) (h_regs m) r <> UB.
Proof. intros r. destruct FIT as (RO & _). unfold get_reg. rewrite (reg_get_known _ _ _ RO). cbn [obind]. destruct (known _ _ _); discriminate. Qed.
Lemma read_word_iff : forall a v, word a -> read_word m a = Ok v <-> reads e (v_asize e) a v.
Proof.
  intros a v A. destruct FIT as (_ & _ & _ & _ & _ & _ & _ & RD). rewrite (RD a v A). unfold read_word. destruct (h_read m) as [rd|].
  - destruct (rd a) as [x|] eqn:E; split; [intros H; injection H as <-; exists rd; auto|intros (rd' & H1 & H2); injection H1 as <-; rewrite H2 in E; injection E as <-; reflexivity|discriminate|intros (rd' & H1 & H2); injection H1 as <-; congruence].
  - split; [discriminate|intros (rd & H & _); discriminate].
Qed.
Lemma read_word_ub : forall a, read_word m a <> UB. Proof. intros a. unfold read_word. destruct (h_read m) as [rd|]; [destruct (rd a)|]; discriminate. Qed.
Lemma asize_cases : v_asize e = (if c32 then 4 else 8). Proof. destruct FIT as (_ & _ & _ & H & _). exact H. Qed.
Lemma reads_word : forall n a v, 0 <= n <= 8 -> reads e n a v -> word v.
Proof.
  intros n a v N (b & L & B & _ & ->). pose proof (fval_bound (v_little e) b B) as F. unfold word. rewrite L in F. assert (256 ^ n <= 256 ^ 8) by (apply Z.pow_le_mono_r; lia). change (256 ^ 8) with two64 in *. lia.
Qed.

(* the first n bytes of a word *)
Lemma reads_part : forall n a w, 0 <= n <= v_asize e -> reads e (v_asize e) a w ->
  forall v, reads e n a v <-> v = if h_big m then w / 256 ^ (v_asize e - n) else w mod 256 ^ n.
Proof.
  intros n a w N (b & L & B & RB & ->). destruct FIT as (_ & _ & _ & _ & LI & _ & U8 & _).
  destruct (zlen_part b n ltac:(lia)) as (x & y & -> & LX). rewrite zlen_app in L. apply bytes_ok_app in B. destruct B as [BX BY].
  assert (RX : forall i, 0 <= i < n -> v_byte e (a + i) = znth x i) by (intros i I'; rewrite RB by lia; apply znth_app_l; lia).
  assert (FX : fval (v_little e) x = if h_big m then fval (v_little e) (x ++ y) / 256 ^ (v_asize e - n) else fval (v_little e) (x ++ y) mod 256 ^ n).
  { rewrite LI. pose proof (le_value_bound x BX) as X. pose proof (le_value_bound y BY) as Y. destruct (h_big m); unfold fval; cbn [negb]; unfold be_value.
    - rewrite rev_app_distr, le_value_app, zlen_rev. replace (v_asize e - n) with (zlen y) by lia.
      assert (bytes_ok (rev y)) by (apply Forall_rev; exact BY). pose proof (le_value_bound (rev y) H) as YR. rewrite zlen_rev in YR.
      rewrite Z.mul_comm, Z.div_add by lia. rewrite (Z.div_small (le_value (rev y))) by lia. lia.
    - rewrite le_value_app, LX. rewrite Z.mul_comm, Z.mod_add by (apply Z.pow_nonzero; lia). rewrite Z.mod_small by (rewrite LX in X; lia). reflexivity. }
  intros v. rewrite <- FX. split.
  - intros (b' & L' & B' & RB' & ->). f_equal. apply nth_ext with (d := 0) (d' := 0); [unfold zlen in *; lia|]. intros i HI.
    assert (E : znth b' (Z.of_nat i) = znth x (Z.of_nat i)) by (rewrite <- RB' by (unfold zlen in *; lia); apply RX; unfold zlen in *; lia).
    unfold znth in E. unfold zlen in *. destruct (_ && _) eqn:C1 in E; [|lia]. destruct (_ && _) eqn:C2 in E; [|lia]. rewrite Nat2Z.id in E.
    rewrite (nth_error_nth' b' 0) in E by lia. rewrite (nth_error_nth' x 0) in E by lia. injection E as ->. reflexivity.
  - intros ->. exists x. auto.
Qed.
Lemma narrow_iff : forall n a w v, 0 <= n -> reads e (v_asize e) a w ->
  (match fr with None => UB | Some c => narrow m c n w end) = Ok v <->
  frame = true /\ n <= v_asize e /\ (h_big m = true \/ n <= 3 \/ n = 8) /\ reads e n a v.
Proof.
  intros n a w v N R. subst fr. destruct frame; [|split; [discriminate|intros [H _]; discriminate]]. unfold narrow. rewrite <- asize_cases.
  destruct (v_asize e <? n) eqn:E; [split; [discriminate|intros (_ & H & _); lia]|]. rewrite (reads_part n a w ltac:(lia) R).
  assert (AS : v_asize e = 4 \/ v_asize e = 8) by (rewrite asize_cases; destruct c32; auto).
  assert (WW : word w) by (apply (reads_word (v_asize e) a w); [lia|exact R]).
  assert (LW : 0 <= w < 256 ^ v_asize e) by (destruct R as (b & L & B & _ & ->); pose proof (fval_bound (v_little e) b B) as F; rewrite L in F; exact F).
  destruct (h_big m).
  - rewrite Z.shiftr_div_pow2 by lia. replace (2 ^ ((v_asize e - n) * 8)) with (256 ^ (v_asize e - n)) by (change 256 with (2 ^ 8); rewrite <- Z.pow_mul_r by lia; f_equal; lia).
    destruct (n =? 0) eqn:N0.
    + assert (n = 0) by lia. subst n. rewrite Z.sub_0_r. rewrite Z.div_small by exact LW. split; [intros H; injection H as <-; auto with zarith|intros (_ & _ & _ & ->); reflexivity].
    + split; [intros H; injection H as <-; split; [reflexivity|]; split; [lia|]; split; [left; reflexivity|reflexivity]|intros (_ & _ & _ & ->); reflexivity].
  - destruct (n <? 8) eqn:N8.
    + destruct (32 <=? n * 8) eqn:N4; [split; [discriminate|intros (_ & _ & [X|X] & _); [discriminate|lia]]|].
      rewrite Z.shiftl_1_l. rewrite land_mask by lia. replace (2 ^ (n * 8)) with (256 ^ n) by (change 256 with (2 ^ 8); rewrite <- Z.pow_mul_r by lia; f_equal; lia).
      split; [intros H; injection H as <-; split; [reflexivity|]; split; [lia|]; split; [right; left; lia|reflexivity]|intros (_ & _ & _ & ->); reflexivity].
    + assert (n = 8) by lia. subst n. assert (v_asize e = 8) by lia. change (256 ^ 8) with two64. rewrite Z.mod_small by exact WW.
      split; [intros H1; injection H1 as <-; split; [reflexivity|]; split; [lia|]; split; [right; right; reflexivity|reflexivity]|intros (_ & _ & _ & ->); reflexivity].
Qed.
Lemma unop_iff : forall o u x v s, word x -> means o (DUn u) -> unop o x = Ok v <-> v = un 64 u x /\ handled e frame (h_big m) (DUn u) (x :: s).
Proof using.
  intros o u x v s X M. inversion M; subst; unfold unop; cbn [o_atom Z.eqb Pos.eqb]; cbn [handled un].
  - rewrite (s64_signed x X). unfold word in X. assert (S6 : (signed 64 x =? - two63) = (x =? two63)) by (unfold signed; change (2 ^ (64 - 1)) with two63; change (2 ^ 64) with two64; destruct (x <? two63) eqn:E; lia).
    rewrite S6. destruct (x =? two63) eqn:E; split; [discriminate|lia|intros Q; injection Q as <-; rewrite u64_wrap; split; [reflexivity|lia]|intros [-> _]; rewrite u64_wrap; reflexivity].
  - assert (S6 : (s64 x =? - two63) = (x =? two63)) by (rewrite (s64_signed x X); unfold word in X; unfold signed; change (2 ^ (64 - 1)) with two63; change (2 ^ 64) with two64; destruct (x <? two63) eqn:E; lia).
    assert (U : u64 (- s64 x) = wrap 64 (- x)).
    { rewrite (s64_signed x X). unfold u64, wrap, signed. change (2 ^ (64 - 1)) with two63. change (2 ^ 64) with two64. destruct (x <? two63); [reflexivity|].
      replace (- (x - two64)) with (- x + 1 * two64) by lia. rewrite Z.mod_add by lia. reflexivity. }
    rewrite S6, U. unfold word in X. destruct (x =? two63) eqn:E; split; [discriminate|lia|intros Q; injection Q as <-; split; [reflexivity|lia]|intros [-> _]; reflexivity].
  - assert (U : u64 (Z.lnot x) = 2 ^ 64 - 1 - x).
    { unfold u64, Z.lnot. change (2 ^ 64) with two64. unfold word in X. replace (Z.pred (- x)) with (two64 - 1 - x + (-1) * two64) by lia. rewrite Z.mod_add by lia. apply Z.mod_small. lia. }
    rewrite U. set (z := 2 ^ 64 - 1 - x). clearbody z. split; [intros Q; injection Q as <-; split; [reflexivity|exact Logic.I]|intros [-> _]; reflexivity].
Qed.
Lemma binop_iff : forall x b v1 v2 v s,
  In (x, b) [(26, BAnd); (27, BDiv); (28, BMinus); (29, BMod); (30, BMul); (33, BOr); (34, BPlus); (36, BShl); (37, BShr); (38, BShra);
             (39, BXor); (41, BEq); (42, BGe); (43, BGt); (44, BLe); (45, BLt); (46, BNe)] -> word v1 -> word v2 ->
  binop x v1 v2 = Ok v <-> bin 64 b v1 v2 = Some v /\ handled e frame (h_big m) (DBin b) (v2 :: v1 :: s).
Proof using.
  assert (SI : forall a b, word a -> word b -> (signed 64 a =? signed 64 b) = (a =? b)).
  { intros a b A B. unfold word, signed in *. change (2 ^ (64 - 1)) with two63. change (2 ^ 64) with two64. destruct (a <? two63) eqn:E1, (b <? two63) eqn:E2; lia. }
  intros x b v1 v2 v s I V1 V2. cbn [In] in I.
  repeat (destruct I as [I|I]; [injection I as <- <-; unfold binop; cbn [Z.eqb Pos.eqb]; cbn [handled bin]; rewrite ?(s64_signed v1 V1), ?(s64_signed v2 V2), ?SI by assumption; rewrite ?u64_wrap; unfold truth;
    try (split; [intros Q; injection Q as <-; auto|intros [Q _]; injection Q as <-; reflexivity]; fail)|]); [| | | | |destruct I].
  - destruct (v2 =? 0) eqn:Z0; [split; [discriminate|intros [Q _]; discriminate]|].
    assert (S1 : (signed 64 v1 =? - two63) = (v1 =? two63)) by (clear - V1; unfold word, signed in *; change (2 ^ (64 - 1)) with two63; change (2 ^ 64) with two64; destruct (v1 <? two63) eqn:E; lia).
    assert (S2 : (signed 64 v2 =? -1) = (v2 =? two64 - 1)) by (clear - V2; unfold word, signed in *; change (2 ^ (64 - 1)) with two63; change (2 ^ 64) with two64; destruct (v2 <? two63) eqn:E; lia).
    rewrite S1, S2. destruct (_ && _) eqn:E; [split; [discriminate|intros [_ Q]; exfalso; apply Q; lia]|].
    split; [intros Q; injection Q as <-; split; [reflexivity|lia]|intros [Q _]; injection Q as <-; reflexivity].
  - destruct (v2 =? 0) eqn:Z0; [split; [discriminate|intros [Q _]; discriminate]|split; [intros Q; injection Q as <-; auto|intros [Q _]; injection Q as <-; reflexivity]].
  - rewrite Z.shiftl_mul_pow2 by (unfold word in V2; lia). destruct (64 <=? v2) eqn:E; split; [discriminate|intros [_ Q]; lia|intros Q; injection Q as <-; split; [reflexivity|lia]|intros [Q _]; injection Q as <-; reflexivity].
  - rewrite Z.shiftr_div_pow2 by (unfold word in V2; lia). destruct (64 <=? v2) eqn:E; split; [discriminate|intros [_ Q]; lia|intros Q; injection Q as <-; split; [reflexivity|lia]|intros [Q _]; injection Q as <-; reflexivity].
  - assert (S2 : ((signed 64 v2 <? 0) || (64 <=? signed 64 v2)) = (64 <=? v2)) by (clear - V2; unfold word, signed in *; change (2 ^ (64 - 1)) with two63; change (2 ^ 64) with two64; destruct (v2 <? two63) eqn:E; lia).
    rewrite S2. destruct (64 <=? v2) eqn:E; [split; [discriminate|intros [_ Q]; lia]|].
    assert (signed 64 v2 = v2) as -> by (clear - V2 E; unfold word, signed in *; change (2 ^ (64 - 1)) with two63; destruct (v2 <? two63) eqn:X; lia).
    rewrite Z.shiftr_div_pow2 by (unfold word in V2; lia). split; [intros Q; injection Q as <-; split; [reflexivity|lia]|intros [Q _]; injection Q as <-; reflexivity].
Qed.
End STEP.
