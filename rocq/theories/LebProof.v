(* Proofs about the LEB128 decoders and unaligned readers. *)
From Verif Require Import Base LebModel LebSpec.

Lemma lor_bound : forall a b n, 0 <= n -> 0 <= a < 2 ^ n -> 0 <= b < 2 ^ n ->
  0 <= Z.lor a b < 2 ^ n.
Proof.
  intros a b n Hn Ha Hb.
  assert (0 <= Z.lor a b) by (apply Z.lor_nonneg; lia).
  split; [lia|].
  destruct (Z.eq_dec (Z.lor a b) 0) as [E|E].
  - rewrite E; apply Z.pow_pos_nonneg; lia.
  - apply Z.log2_lt_pow2; [lia|].
    rewrite Z.log2_lor by lia.
    destruct (Z.eq_dec n 0) as [->|Hn0].
    { change (2 ^ 0) with 1 in *. assert (a = 0) by lia. assert (b = 0) by lia. subst. simpl in E. lia. }
    apply Z.max_lub_lt.
    + destruct (Z.eq_dec a 0) as [->|]; [simpl; lia|apply Z.log2_lt_pow2; lia].
    + destruct (Z.eq_dec b 0) as [->|]; [simpl; lia|apply Z.log2_lt_pow2; lia].
Qed.

Lemma pow7_cases : forall i, 0 <= i <= 9 ->
  exists m, 0 < m /\ m * 2 ^ (7 * i) = two64 /\ 0 < 2 ^ (7 * i) <= two63.
Proof.
  intros i Hi. exists (2 ^ (64 - 7 * i)).
  assert (H1 : 0 < 2 ^ (64 - 7 * i)) by (apply Z.pow_pos_nonneg; lia).
  assert (H2 : 0 < 2 ^ (7 * i)) by (apply Z.pow_pos_nonneg; lia).
  split; [exact H1|]. split.
  - rewrite <- Z.pow_add_r by lia. replace (64 - 7 * i + 7 * i) with 64 by lia. reflexivity.
  - split; [exact H2|]. change two63 with (2 ^ 63). apply Z.pow_le_mono_r; lia.
Qed.

Lemma uleb_acc : forall acc g i,
  0 <= i <= 9 -> 0 <= acc < 2 ^ (7 * i) -> 0 <= g < 128 ->
  Z.lor acc (u64 (Z.shiftl g (i * 7))) = u64 (acc + g * 2 ^ (7 * i)).
Proof.
  intros acc g i Hi Ha Hg.
  rewrite Z.shiftl_mul_pow2 by lia.
  replace (i * 7) with (7 * i) by lia.
  destruct (pow7_cases i Hi) as (m & Hm & Hmm & Hp).
  unfold u64. rewrite <- Hmm at 1.
  rewrite Zmult_mod_distr_r.
  rewrite lor_add_pow2 by lia.
  pose proof (Z.mod_pos_bound g m Hm) as Hgm.
  rewrite <- Hmm.
  rewrite (Z.div_mod g m) at 2 by lia.
  replace (acc + (m * (g / m) + g mod m) * 2 ^ (7 * i))
    with ((acc + g mod m * 2 ^ (7 * i)) + (g / m) * (m * 2 ^ (7 * i))) by ring.
  rewrite Z.mod_add by lia.
  symmetry; apply Z.mod_small.
  split; [nia|]. nia.
Qed.

Lemma uleb_step_last : forall mem pos acc i x,
  znth mem pos = Some x -> 0 <= x < 128 -> 0 <= i <= 9 -> 0 <= acc < 2 ^ (7 * i) ->
  uleb_step mem acc pos i = Ok (inl (u64 (acc + x * 2 ^ (7 * i))), pos + 1).
Proof.
  intros mem pos acc i x Hx Hr Hi Ha. unfold uleb_step; rewrite Hx.
  rewrite land_128_u8 by lia. replace (x <? 128) with true by lia.
  rewrite Z.eqb_refl, land_127, (Z.mod_small x 128) by lia.
  now rewrite uleb_acc.
Qed.

Lemma uleb_step_more : forall mem pos acc i x,
  znth mem pos = Some x -> 128 <= x < 256 -> 0 <= i <= 9 -> 0 <= acc < 2 ^ (7 * i) ->
  uleb_step mem acc pos i = Ok (inr (u64 (acc + (x mod 128) * 2 ^ (7 * i))), pos + 1).
Proof.
  intros mem pos acc i x Hx Hr Hi Ha. unfold uleb_step; rewrite Hx.
  rewrite land_128_u8 by lia. replace (x <? 128) with false by lia.
  rewrite land_127. pose proof (Z.mod_pos_bound x 128 ltac:(lia)).
  rewrite uleb_acc by lia. reflexivity.
Qed.

Lemma leb_complete_range : forall b, leb_complete b -> bytes_ok b.
Proof.
  induction b as [|x r IH]; intros H; [constructor|].
  destruct r as [|y r].
  - constructor; [unfold is_u8; simpl in H; lia|constructor].
  - destruct H as [Hx Hr]. constructor; [unfold is_u8; lia|apply IH; exact Hr].
Qed.

Lemma acc_next : forall acc x i, 0 <= i <= 8 -> 0 <= acc < 2 ^ (7 * i) ->
  u64 (acc + (x mod 128) * 2 ^ (7 * i)) = acc + (x mod 128) * 2 ^ (7 * i)
  /\ 0 <= acc + (x mod 128) * 2 ^ (7 * i) < 2 ^ (7 * (i + 1)).
Proof.
  intros acc x i Hi Ha.
  pose proof (Z.mod_pos_bound x 128 ltac:(lia)).
  assert (Hp : 2 ^ (7 * (i + 1)) = 128 * 2 ^ (7 * i)).
  { replace (7 * (i + 1)) with (7 + 7 * i) by lia. rewrite Z.pow_add_r by lia. reflexivity. }
  assert (Hb : 2 ^ (7 * (i + 1)) <= two63).
  { change two63 with (2 ^ 63). apply Z.pow_le_mono_r; lia. }
  assert (0 <= acc + (x mod 128) * 2 ^ (7 * i) < 2 ^ (7 * (i + 1))) by nia.
  split; [|lia]. unfold u64; apply Z.mod_small; lia.
Qed.

Lemma uleb_loop_complete : forall bs mem n acc pos i rest pre,
  mem = pre ++ bs ++ rest -> pos = zlen pre ->
  leb_complete bs -> (length bs <= n)%nat -> 0 <= i -> i + zlen bs <= 10 ->
  0 <= acc < 2 ^ (7 * i) ->
  uleb_loop mem n acc pos i = Ok (u64 (acc + 2 ^ (7 * i) * uleb_value bs), pos + zlen bs).
Proof.
  induction bs as [|x r IH]; intros mem n acc pos i rest pre Hm Hpos Hc Hn Hi Hlen Ha.
  - destruct Hc.
  - destruct n as [|n]; [simpl in Hn; lia|].
    assert (Hx : znth mem pos = Some x).
    { subst. rewrite znth_app_r by lia. rewrite Z.sub_diag. apply znth_0. }
    pose proof (zlen_nonneg _ r) as Hr0.
    rewrite zlen_cons in Hlen.
    cbn [uleb_loop].
    destruct r as [|y r].
    + simpl in Hc. rewrite (uleb_step_last mem pos acc i x) by (auto; lia).
      cbn [obind uleb_value]. rewrite zlen_cons, zlen_nil.
      rewrite (Z.mod_small x 128) by lia. f_equal. f_equal. f_equal. lia.
    + destruct Hc as [Hx1 Hc]. rewrite zlen_cons in Hlen, Hr0. pose proof (zlen_nonneg _ r).
      rewrite (uleb_step_more mem pos acc i x) by (auto; lia).
      cbn [obind].
      destruct (acc_next acc x i ltac:(lia) Ha) as [E Hb]. rewrite E.
      rewrite (IH mem n _ (pos + 1) (i + 1) rest (pre ++ [x])); auto; try lia.
      * change (uleb_value (x :: y :: r)) with (x mod 128 + 128 * uleb_value (y :: r)).
        rewrite (zlen_cons _ x). f_equal. f_equal; [|lia].
        f_equal. replace (7 * (i + 1)) with (7 + 7 * i) by lia.
        rewrite Z.pow_add_r by lia. change (2 ^ 7) with 128. ring.
      * subst mem. rewrite <- app_assoc. reflexivity.
      * rewrite zlen_app, zlen_cons, zlen_nil. lia.
      * simpl in Hn |- *; lia.
      * rewrite zlen_cons; lia.
Qed.

Lemma max_len_uleb_eq : forall addr e, addr < e ->
  max_len_uleb128 addr e = Z.min 10 (e - addr).
Proof.
  intros addr e H; unfold max_len_uleb128, max_len_leb128.
  change len_leb128_64 with 10. replace (addr <? e) with true by lia.
  destruct (10 <=? e - addr) eqn:E; lia.
Qed.

Lemma max_len_sleb_eq : forall addr e, addr < e ->
  max_len_sleb128 addr e = Z.min 9 (e - addr).
Proof.
  intros addr e H; unfold max_len_sleb128, max_len_leb128.
  change (len_leb128_64 - 1) with 9. replace (addr <? e) with true by lia.
  destruct (9 <=? e - addr) eqn:E; lia.
Qed.

(* get_uleb128 is the loop started at step 0. *)
Lemma get_uleb_as_loop : forall mem pos e, pos < e ->
  get_uleb128 mem pos e = uleb_loop mem (Z.to_nat (Z.min 10 (e - pos))) 0 pos 0.
Proof.
  intros mem pos e H; unfold get_uleb128.
  replace (Z.to_nat (Z.min 10 (e - pos))) with (S (Z.to_nat (Z.min 10 (e - pos) - 1))) by lia.
  cbn [uleb_loop].
  destruct (uleb_step mem 0 pos 0) as [[r p]|ee| |] eqn:E; try reflexivity.
  cbn [obind]. destruct r as [v|a]; [reflexivity|].
  assert (p = pos + 1).
  { unfold uleb_step in E. destruct (znth mem pos); [|discriminate].
    destruct (_ =? 0); congruence. }
  subst p. replace (pos + 1 - 1) with pos by lia.
  rewrite max_len_uleb_eq by lia. reflexivity.
Qed.

Lemma get_uleb_unchecked_as_loop : forall mem pos,
  get_uleb128_unchecked mem pos = uleb_loop mem 10 0 pos 0.
Proof.
  intros mem pos; unfold get_uleb128_unchecked. cbn [uleb_loop].
  destruct (uleb_step mem 0 pos 0) as [[r p]|ee| |]; reflexivity.
Qed.

Lemma get_uleb128_correct : forall pre bs rest e,
  leb_complete bs -> zlen bs <= 10 -> zlen pre + zlen bs <= e ->
  get_uleb128 (pre ++ bs ++ rest) (zlen pre) e
  = Ok (uleb_value bs mod two64, zlen pre + zlen bs).
Proof.
  intros pre bs rest e Hc Hl He.
  assert (0 < zlen bs).
  { destruct bs; [destruct Hc|rewrite zlen_cons; pose proof (zlen_nonneg _ bs); lia]. }
  rewrite get_uleb_as_loop by lia.
  rewrite (uleb_loop_complete bs _ _ 0 (zlen pre) 0 rest pre); auto.
  - change (2 ^ (7 * 0)) with 1. unfold u64. rewrite Z.add_0_l, Z.mul_1_l. reflexivity.
  - unfold zlen in *; lia.
  - lia.
  - simpl; lia.
Qed.

(* totality and bounds for arbitrary bytes *)
Lemma uleb_step_total : forall mem acc pos i,
  bytes_ok mem -> 0 <= pos < zlen mem -> is_u64 acc ->
  exists v, is_u64 v /\ (uleb_step mem acc pos i = Ok (inl v, pos + 1)
                         \/ uleb_step mem acc pos i = Ok (inr v, pos + 1)).
Proof.
  intros mem acc pos i Hm Hp Ha.
  destruct (znth_in _ mem pos Hp) as [x Hx].
  unfold uleb_step; rewrite Hx.
  eexists; split; [|destruct (Z.land x 128 =? 0); [left|right]; reflexivity].
  unfold is_u64 in *. change two64 with (2 ^ 64) in *.
  apply lor_bound; [lia|exact Ha|]. unfold u64. change two64 with (2 ^ 64).
  apply Z.mod_pos_bound; lia.
Qed.

Lemma uleb_loop_total : forall n mem acc pos i,
  bytes_ok mem -> 0 <= pos -> pos + Z.of_nat n <= zlen mem -> is_u64 acc ->
  exists v p, uleb_loop mem n acc pos i = Ok (v, p) /\ is_u64 v
              /\ pos <= p <= pos + Z.of_nat n /\ (n <> O -> pos < p).
Proof.
  induction n as [|n IH]; intros mem acc pos i Hm Hp Hl Ha.
  - exists UINT64_MAX, pos; simpl. split; [reflexivity|].
    split; [unfold is_u64, UINT64_MAX; lia|]. split; [lia|congruence].
  - destruct (uleb_step_total mem acc pos i Hm ltac:(lia) Ha) as (v & Hv & [E|E]);
      cbn [uleb_loop]; rewrite E; cbn [obind].
    + exists v, (pos + 1). split; [reflexivity|]. split; [exact Hv|]. split; [lia|lia].
    + destruct (IH mem v (pos + 1) (i + 1) Hm ltac:(lia) ltac:(lia) Hv) as (w & p & E2 & Hw & Hp2 & _).
      exists w, p. split; [exact E2|]. split; [exact Hw|]. split; lia.
Qed.

Lemma get_uleb128_total : forall mem pos e,
  bytes_ok mem -> 0 <= pos < e -> e <= zlen mem ->
  exists v p, get_uleb128 mem pos e = Ok (v, p) /\ is_u64 v
              /\ pos < p <= e /\ p <= pos + 10.
Proof.
  intros mem pos e Hm Hp He.
  rewrite get_uleb_as_loop by lia.
  destruct (uleb_loop_total (Z.to_nat (Z.min 10 (e - pos))) mem 0 pos 0 Hm)
    as (v & p & E & Hv & Hb & Hs); try (unfold is_u64; lia).
  exists v, p. split; [exact E|]. split; [exact Hv|]. split; lia.
Qed.

Lemma uleb_loop_local : forall n mem mem' acc pos i,
  (forall k, pos <= k < pos + Z.of_nat n -> znth mem k = znth mem' k) ->
  uleb_loop mem n acc pos i = uleb_loop mem' n acc pos i.
Proof.
  induction n as [|n IH]; intros mem mem' acc pos i H; [reflexivity|].
  cbn [uleb_loop]. unfold uleb_step. rewrite (H pos) by lia.
  destruct (znth mem' pos) as [b|]; [|reflexivity].
  destruct (Z.land b 128 =? 0); cbn [obind]; [reflexivity|].
  apply IH; intros k Hk; apply H; lia.
Qed.

Lemma get_uleb128_local : forall mem mem' pos e,
  pos < e -> (forall k, pos <= k < e -> znth mem k = znth mem' k) ->
  get_uleb128 mem pos e = get_uleb128 mem' pos e.
Proof.
  intros mem mem' pos e He H. rewrite !get_uleb_as_loop by lia.
  apply uleb_loop_local. intros k Hk; apply H; lia.
Qed.

(* unterminated *)
Lemma uleb_loop_unterminated : forall n mem acc pos i,
  (forall k, pos <= k < pos + Z.of_nat n -> exists x, znth mem k = Some x /\ 128 <= x < 256) ->
  uleb_loop mem n acc pos i = Ok (UINT64_MAX, pos + Z.of_nat n).
Proof.
  induction n as [|n IH]; intros mem acc pos i H.
  - simpl. do 2 f_equal; lia.
  - cbn [uleb_loop]. destruct (H pos ltac:(lia)) as (x & Hx & Hr).
    unfold uleb_step; rewrite Hx. rewrite land_128_u8 by lia.
    replace (x <? 128) with false by lia. cbn [obind Z.eqb].
    rewrite IH by (intros k Hk; apply H; lia). do 2 f_equal; lia.
Qed.

Lemma get_uleb128_unterminated : forall pre bs rest e,
  no_terminator bs -> 0 < zlen bs ->
  (zlen bs = 10 /\ zlen pre + 10 <= e \/ zlen bs <= 10 /\ e = zlen pre + zlen bs) ->
  get_uleb128 (pre ++ bs ++ rest) (zlen pre) e = Ok (UINT64_MAX, zlen pre + zlen bs).
Proof.
  intros pre bs rest e Hn Hl He.
  rewrite get_uleb_as_loop by lia.
  replace (Z.to_nat (Z.min 10 (e - zlen pre))) with (length bs) by (unfold zlen in *; lia).
  rewrite uleb_loop_unterminated; [reflexivity|].
  intros k Hk. rewrite znth_app_r by lia. rewrite znth_app_l by (unfold zlen in *; lia).
  destruct (znth_in _ bs (k - zlen pre) ltac:(unfold zlen in *; lia)) as [x Hx].
  exists x; split; [exact Hx|].
  apply znth_Some in Hx; destruct Hx as [_ Hx]. apply nth_error_In in Hx.
  unfold no_terminator in Hn; rewrite Forall_forall in Hn; auto.
Qed.

(* checked and unchecked agree when the number ends before the end pointer *)
Lemma uleb_loop_more : forall n m mem acc pos i v p,
  uleb_loop mem n acc pos i = Ok (v, p) -> p < pos + Z.of_nat n -> (n <= m)%nat ->
  uleb_loop mem m acc pos i = Ok (v, p).
Proof.
  induction n as [|n IH]; intros m mem acc pos i v p H Hp Hm.
  - simpl in H. inversion H; subst. lia.
  - destruct m as [|m]; [lia|]. cbn [uleb_loop] in *.
    unfold uleb_step in *. destruct (znth mem pos) as [b|]; [|discriminate].
    destruct (Z.land b 128 =? 0); cbn [obind] in *; [exact H|].
    apply IH; auto; lia.
Qed.

(* ------------------------------------------------------------------ *)
(* signed *)
Lemma s64_small : forall x, - two63 <= x < two63 -> s64 x = x.
Proof. intros x H; unfold s64; rewrite Z.mod_small; lia. Qed.

Lemma sext7_value : forall x, 0 <= x < 128 -> sext7 x = if x <? 64 then x else x - 128.
Proof.
  intros x H; unfold sext7.
  destruct (x <? 64) eqn:E.
  - rewrite Z.mod_small; lia.
  - replace (x + 64) with (x - 64 + 1 * 128) by lia.
    rewrite Z.mod_add, Z.mod_small; lia.
Qed.

Lemma sleb_step_last : forall mem pos acc i x,
  znth mem pos = Some x -> 0 <= x < 128 -> 0 <= i <= 8 -> 0 <= acc < 2 ^ (7 * i) ->
  sleb_step mem acc pos i
  = Ok (inl (acc + (if x <? 64 then x else x - 128) * 2 ^ (7 * i)), pos + 1).
Proof.
  intros mem pos acc i x Hx Hr Hi Ha. unfold sleb_step; rewrite Hx.
  rewrite land_128_u8 by lia. replace (x <? 128) with true by lia.
  rewrite Z.eqb_refl. rewrite sext7_value by lia.
  rewrite Z.shiftl_mul_pow2 by lia. replace (i * 7) with (7 * i) by lia. rewrite Z.mul_1_l.
  assert (Hp : 0 < 2 ^ (7 * i) <= 2 ^ 56).
  { split; [apply Z.pow_pos_nonneg; lia|apply Z.pow_le_mono_r; lia]. }
  change (2 ^ 56) with 72057594037927936 in Hp.
  rewrite s64_small by (destruct (x <? 64) eqn:E; nia).
  now rewrite lor_add_pow2 by lia.
Qed.

Lemma sleb_step_more : forall mem pos acc i x,
  znth mem pos = Some x -> 128 <= x < 256 -> 0 <= i <= 7 -> 0 <= acc < 2 ^ (7 * i) ->
  sleb_step mem acc pos i = Ok (inr (acc + (x mod 128) * 2 ^ (7 * i)), pos + 1).
Proof.
  intros mem pos acc i x Hx Hr Hi Ha. unfold sleb_step; rewrite Hx.
  rewrite land_128_u8 by lia. replace (x <? 128) with false by lia.
  change (128 =? 0) with false. cbv iota.
  rewrite land_127. pose proof (Z.mod_pos_bound x 128 ltac:(lia)).
  rewrite Z.shiftl_mul_pow2 by lia. replace (i * 7) with (7 * i) by lia.
  assert (Hp : 0 < 2 ^ (7 * i) <= 2 ^ 49).
  { split; [apply Z.pow_pos_nonneg; lia|apply Z.pow_le_mono_r; lia]. }
  change (2 ^ 49) with 562949953421312 in Hp.
  assert (0 <= x mod 128 * 2 ^ (7 * i) <= 127 * 562949953421312).
  { split; [apply Z.mul_nonneg_nonneg; lia|apply Z.mul_le_mono_nonneg; lia]. }
  change (128 =? 0) with false. cbv iota.
  rewrite s64_small by lia. now rewrite lor_add_pow2 by lia.
Qed.

Lemma sleb_loop_complete : forall bs mem n acc pos i rest pre,
  mem = pre ++ bs ++ rest -> pos = zlen pre ->
  leb_complete bs -> (length bs <= n)%nat -> 0 <= i -> i + zlen bs <= 9 ->
  0 <= acc < 2 ^ (7 * i) ->
  sleb_loop mem n acc pos i = Ok (acc + 2 ^ (7 * i) * sleb_value bs, pos + zlen bs).
Proof.
  induction bs as [|x r IH]; intros mem n acc pos i rest pre Hm Hpos Hc Hn Hi Hlen Ha.
  - destruct Hc.
  - destruct n as [|n]; [simpl in Hn; lia|].
    assert (Hx : znth mem pos = Some x).
    { subst. rewrite znth_app_r by lia. rewrite Z.sub_diag. apply znth_0. }
    pose proof (zlen_nonneg _ r) as Hr0.
    rewrite zlen_cons in Hlen.
    cbn [sleb_loop].
    destruct r as [|y r].
    + simpl in Hc. rewrite (sleb_step_last mem pos acc i x) by (auto; lia).
      cbn [obind sleb_value]. rewrite zlen_cons, zlen_nil.
      f_equal. f_equal; ring.
    + destruct Hc as [Hx1 Hc]. rewrite zlen_cons in Hlen, Hr0. pose proof (zlen_nonneg _ r).
      rewrite (sleb_step_more mem pos acc i x) by (auto; lia).
      cbn [obind].
      destruct (acc_next acc x i ltac:(lia) Ha) as [_ Hb].
      rewrite (IH mem n _ (pos + 1) (i + 1) rest (pre ++ [x])); auto; try lia.
      * change (sleb_value (x :: y :: r)) with (x mod 128 + 128 * sleb_value (y :: r)).
        rewrite (zlen_cons _ x). f_equal. f_equal; [|lia].
        replace (7 * (i + 1)) with (7 + 7 * i) by lia.
        rewrite Z.pow_add_r by lia. change (2 ^ 7) with 128. ring.
      * subst mem. rewrite <- app_assoc. reflexivity.
      * rewrite zlen_app, zlen_cons, zlen_nil. lia.
      * simpl in Hn |- *; lia.
      * rewrite zlen_cons; lia.
Qed.

Lemma get_sleb_as_loop : forall mem pos e, pos < e ->
  get_sleb128 mem pos e = sleb_loop mem (Z.to_nat (Z.min 9 (e - pos))) 0 pos 0.
Proof.
  intros mem pos e H; unfold get_sleb128.
  replace (Z.to_nat (Z.min 9 (e - pos))) with (S (Z.to_nat (Z.min 9 (e - pos) - 1))) by lia.
  cbn [sleb_loop].
  destruct (sleb_step mem 0 pos 0) as [[r p]|ee| |] eqn:E; try reflexivity.
  cbn [obind]. destruct r as [v|a]; [reflexivity|].
  assert (p = pos + 1).
  { unfold sleb_step in E. destruct (znth mem pos); [|discriminate].
    destruct (_ =? 0); congruence. }
  subst p. replace (pos + 1 - 1) with pos by lia.
  rewrite max_len_sleb_eq by lia. reflexivity.
Qed.

Lemma get_sleb_unchecked_as_loop : forall mem pos,
  get_sleb128_unchecked mem pos = sleb_loop mem 9 0 pos 0.
Proof.
  intros mem pos; unfold get_sleb128_unchecked. cbn [sleb_loop].
  destruct (sleb_step mem 0 pos 0) as [[r p]|ee| |]; reflexivity.
Qed.

Lemma get_sleb128_correct : forall pre bs rest e,
  leb_complete bs -> zlen bs <= 9 -> zlen pre + zlen bs <= e ->
  get_sleb128 (pre ++ bs ++ rest) (zlen pre) e = Ok (sleb_value bs, zlen pre + zlen bs).
Proof.
  intros pre bs rest e Hc Hl He.
  assert (0 < zlen bs).
  { destruct bs; [destruct Hc|rewrite zlen_cons; pose proof (zlen_nonneg _ bs); lia]. }
  rewrite get_sleb_as_loop by lia.
  rewrite (sleb_loop_complete bs _ _ 0 (zlen pre) 0 rest pre); auto.
  - change (2 ^ (7 * 0)) with 1. f_equal. f_equal. ring.
  - unfold zlen in *; lia.
  - lia.
  - simpl; lia.
Qed.

Lemma sleb_loop_total : forall n mem acc pos i,
  bytes_ok mem -> 0 <= pos -> pos + Z.of_nat n <= zlen mem ->
  exists v p, sleb_loop mem n acc pos i = Ok (v, p)
              /\ pos <= p <= pos + Z.of_nat n /\ (n <> O -> pos < p).
Proof.
  induction n as [|n IH]; intros mem acc pos i Hm Hp Hl.
  - exists INT64_MAX, pos; simpl. split; [reflexivity|]. split; [lia|congruence].
  - cbn [sleb_loop]. unfold sleb_step.
    destruct (znth_in _ mem pos ltac:(lia)) as [x Hx]; rewrite Hx.
    destruct (Z.land x 128 =? 0); cbn [obind].
    + eexists; exists (pos + 1). split; [reflexivity|]. split; lia.
    + destruct (IH mem (Z.lor acc (s64 (Z.shiftl (Z.land x 127) (i * 7)))) (pos + 1) (i + 1) Hm ltac:(lia) ltac:(lia))
        as (w & p & E2 & Hp2 & _).
      exists w, p. split; [exact E2|]. split; lia.
Qed.

Lemma get_sleb128_total : forall mem pos e,
  bytes_ok mem -> 0 <= pos < e -> e <= zlen mem ->
  exists v p, get_sleb128 mem pos e = Ok (v, p) /\ pos < p <= e /\ p <= pos + 9.
Proof.
  intros mem pos e Hm Hp He.
  rewrite get_sleb_as_loop by lia.
  destruct (sleb_loop_total (Z.to_nat (Z.min 9 (e - pos))) mem 0 pos 0 Hm)
    as (v & p & E & Hb & Hs); try lia.
  exists v, p. split; [exact E|]. split; lia.
Qed.

Lemma sleb_loop_local : forall n mem mem' acc pos i,
  (forall k, pos <= k < pos + Z.of_nat n -> znth mem k = znth mem' k) ->
  sleb_loop mem n acc pos i = sleb_loop mem' n acc pos i.
Proof.
  induction n as [|n IH]; intros mem mem' acc pos i H; [reflexivity|].
  cbn [sleb_loop]. unfold sleb_step. rewrite (H pos) by lia.
  destruct (znth mem' pos) as [b|]; [|reflexivity].
  destruct (Z.land b 128 =? 0); cbn [obind]; [reflexivity|].
  apply IH; intros k Hk; apply H; lia.
Qed.

Lemma get_sleb128_local : forall mem mem' pos e,
  pos < e -> (forall k, pos <= k < e -> znth mem k = znth mem' k) ->
  get_sleb128 mem pos e = get_sleb128 mem' pos e.
Proof.
  intros mem mem' pos e He H. rewrite !get_sleb_as_loop by lia.
  apply sleb_loop_local. intros k Hk; apply H; lia.
Qed.

Lemma sleb_loop_more : forall n m mem acc pos i v p,
  sleb_loop mem n acc pos i = Ok (v, p) -> p < pos + Z.of_nat n -> (n <= m)%nat ->
  sleb_loop mem m acc pos i = Ok (v, p).
Proof.
  induction n as [|n IH]; intros m mem acc pos i v p H Hp Hm.
  - simpl in H. inversion H; subst. lia.
  - destruct m as [|m]; [lia|]. cbn [sleb_loop] in *.
    unfold sleb_step in *. destruct (znth mem pos) as [b|]; [|discriminate].
    destruct (Z.land b 128 =? 0); cbn [obind] in *; [exact H|].
    apply IH; auto; lia.
Qed.

Lemma sleb_loop_unterminated : forall n mem acc pos i,
  (forall k, pos <= k < pos + Z.of_nat n -> exists x, znth mem k = Some x /\ 128 <= x < 256) ->
  sleb_loop mem n acc pos i = Ok (INT64_MAX, pos + Z.of_nat n).
Proof.
  induction n as [|n IH]; intros mem acc pos i H.
  - simpl. do 2 f_equal; lia.
  - cbn [sleb_loop]. destruct (H pos ltac:(lia)) as (x & Hx & Hr).
    unfold sleb_step; rewrite Hx. rewrite land_128_u8 by lia.
    replace (x <? 128) with false by lia. cbn [obind Z.eqb].
    rewrite IH by (intros k Hk; apply H; lia). do 2 f_equal; lia.
Qed.

(* ------------------------------------------------------------------ *)
(* canonical encodings *)
Lemma uleb_encode_spec : forall n v, 0 <= v < 128 ^ Z.of_nat n -> (0 < n)%nat ->
  leb_complete (uleb_encode n v) /\ uleb_value (uleb_encode n v) = v
  /\ zlen (uleb_encode n v) <= Z.of_nat n.
Proof.
  induction n as [|n IH]; intros v Hv Hn; [lia|].
  cbn [uleb_encode]. pose proof (Z.mod_pos_bound v 128 ltac:(lia)) as Hm.
  pose proof (Z.div_mod v 128 ltac:(lia)) as Hd.
  destruct (v / 128 =? 0) eqn:E.
  - simpl. rewrite Z.mod_mod by lia. split; [lia|]. split; [lia|].
    unfold zlen; simpl; lia.
  - destruct n as [|n].
    { simpl in Hv. change (Z.pow_pos 128 1) with 128 in Hv.
      rewrite Z.div_small in E by lia. discriminate. }
    rewrite Nat2Z.inj_succ, Z.pow_succ_r in Hv by lia.
    assert (Hv2 : 0 <= v / 128 < 128 ^ Z.of_nat (S n)).
    { split; [apply Z.div_pos; lia|]. apply Z.div_lt_upper_bound; lia. }
    destruct (IH (v / 128) Hv2 ltac:(lia)) as (H1 & H2 & H3).
    set (t := uleb_encode (S n) (v / 128)) in *.
    split.
    + destruct t as [|y t]; [destruct H1|]. split; [lia|exact H1].
    + split.
      * cbn [uleb_value]. rewrite H2.
        replace (v mod 128 + 128) with (v mod 128 + 1 * 128) by lia.
        rewrite Z.mod_add, Z.mod_mod by lia. lia.
      * rewrite zlen_cons. lia.
Qed.

Lemma sleb_encode_spec : forall n v, - (64 * 128 ^ Z.of_nat n) <= v < 64 * 128 ^ Z.of_nat n ->
  leb_complete (sleb_encode (S n) v) /\ sleb_value (sleb_encode (S n) v) = v
  /\ zlen (sleb_encode (S n) v) <= Z.of_nat (S n).
Proof.
  induction n as [|n IH]; intros v Hv;
    pose proof (Z.mod_pos_bound v 128 ltac:(lia)) as Hm;
    pose proof (Z.div_mod v 128 ltac:(lia)) as Hd.
  - cbn [sleb_encode]. simpl in Hv.
    replace ((-64 <=? v) && (v <? 64)) with true by lia.
    simpl. split; [lia|]. split; [|unfold zlen; simpl; lia].
    destruct (v mod 128 <? 64) eqn:E; Z.div_mod_to_equations; lia.
  - remember (S n) as m eqn:Em. cbn [sleb_encode].
    destruct ((-64 <=? v) && (v <? 64)) eqn:E.
    + simpl. split; [lia|]. split; [|unfold zlen; simpl; lia].
      destruct (v mod 128 <? 64) eqn:E2; Z.div_mod_to_equations; lia.
    + subst m. rewrite Nat2Z.inj_succ, Z.pow_succ_r in Hv by lia.
      assert (Hv2 : - (64 * 128 ^ Z.of_nat n) <= v / 128 < 64 * 128 ^ Z.of_nat n).
      { split; [apply Z.div_le_lower_bound; lia|apply Z.div_lt_upper_bound; lia]. }
      destruct (IH (v / 128) Hv2) as (H1 & H2 & H3).
      set (t := sleb_encode (S n) (v / 128)) in *.
      split.
      * destruct t as [|y t]; [destruct H1|]. split; [lia|exact H1].
      * split.
        { destruct t as [|y t]; [destruct H1|].
          change (sleb_value ((v mod 128 + 128) :: y :: t))
            with ((v mod 128 + 128) mod 128 + 128 * sleb_value (y :: t)).
          rewrite H2.
          replace (v mod 128 + 128) with (v mod 128 + 1 * 128) by lia.
          rewrite Z.mod_add, Z.mod_mod by lia. lia. }
        { rewrite zlen_cons. lia. }
Qed.

(* ------------------------------------------------------------------ *)
(* fixed width reads *)
Definition order_of (e : endian) : byte_order := match e with LE => little | BE => big end.

Lemma bswap_le : forall b, bytes_ok b -> bswap (length b) (le_value b) = be_value b.
Proof. intros b H; unfold bswap; now rewrite le_bytes_value. Qed.

Lemma bswap_be : forall b, bytes_ok b -> bswap (length b) (be_value b) = le_value b.
Proof.
  intros b H; unfold bswap, be_value.
  rewrite <- (rev_length b), le_bytes_value by now apply Forall_rev.
  now rewrite rev_involutive.
Qed.

Lemma zsub_bytes_ok : forall b off n, bytes_ok b -> bytes_ok (zsub b off n).
Proof.
  intros b off n H; unfold zsub, bytes_ok in *.
  rewrite <- (firstn_skipn (Z.to_nat off) b) in H. apply Forall_app in H. destruct H as [_ H].
  rewrite <- (firstn_skipn (Z.to_nat n) (skipn (Z.to_nat off) b)) in H.
  apply Forall_app in H. tauto.
Qed.

Lemma read_ubyte_correct : forall host obo n pre b rest,
  bytes_ok b -> length b = n ->
  read_ubyte host obo n (pre ++ b ++ rest) (zlen pre)
  = Ok (int_value (order_of (file_byte_order host obo)) b).
Proof.
  intros host obo n pre b rest Hb Hn. unfold read_ubyte, read_bytes.
  pose proof (zlen_nonneg _ pre). pose proof (zlen_nonneg _ rest).
  replace ((0 <=? zlen pre) && (zlen pre + Z.of_nat n <=? zlen (pre ++ b ++ rest))) with true
    by (rewrite !zlen_app; unfold zlen at 4; lia).
  cbn [obind].
  replace (Z.of_nat n) with (zlen b) by (unfold zlen; lia). rewrite zsub_app.
  subst n. destruct host, obo; simpl; rewrite ?bswap_le, ?bswap_be by assumption; reflexivity.
Qed.

Lemma read_3ubyte_correct : forall host obo pre b rest,
  bytes_ok b -> length b = 3%nat ->
  read_3ubyte_unaligned host obo (pre ++ b ++ rest) (zlen pre)
  = Ok (int_value (order_of (file_byte_order host obo)) b).
Proof.
  intros host obo pre b rest Hb Hn. unfold read_3ubyte_unaligned, read_bytes.
  pose proof (zlen_nonneg _ pre). pose proof (zlen_nonneg _ rest).
  replace ((0 <=? zlen pre) && (zlen pre + 3 <=? zlen (pre ++ b ++ rest))) with true
    by (rewrite !zlen_app; unfold zlen at 4; lia).
  cbn [obind].
  replace 3 with (zlen b) by (unfold zlen; lia). rewrite zsub_app.
  destruct b as [|b0 [|b1 [|b2 [|b3 b]]]]; try discriminate Hn.
  assert (bytes_ok [b0; b1; b2; 0]) as Hx.
  { apply bytes_ok_app with (a := [b0;b1;b2]). split; [exact Hb|].
    constructor; [unfold is_u8; lia|constructor]. }
  assert (bytes_ok [0; b0; b1; b2]) as Hy by (constructor; [unfold is_u8; lia|exact Hb]).
  destruct host, obo; unfold file_byte_order, order_of, native_load, int_value; cbn [app].
  - change 4%nat with (length [0; b0; b1; b2]). rewrite bswap_le by assumption.
    f_equal; unfold be_value; cbn [rev app le_value]; ring.
  - f_equal; cbn [le_value]; ring.
  - change 4%nat with (length [b0; b1; b2; 0]). rewrite bswap_be by assumption.
    f_equal; cbn [le_value]; ring.
  - f_equal; unfold be_value; cbn [rev app le_value]; ring.
Qed.
