(* Proofs about XlateModel: fixed records. *)
From Verif Require Import Base ElfErr XlateModel XlateSpec.

Lemma rdm_len : forall m a n, length (rdm m a n) = n.
Proof. intros; unfold rdm; now rewrite map_length, seq_length. Qed.

Lemma rdm_ext : forall m1 m2 a n,
  (forall x, a <= x < a + Z.of_nat n -> m1 x = m2 x) -> rdm m1 a n = rdm m2 a n.
Proof.
  intros m1 m2 a n H. unfold rdm. apply map_ext_in. intros i Hi. apply in_seq in Hi.
  apply H. lia.
Qed.

Lemma rdm_S : forall m a n, rdm m a (S n) = m a :: rdm m (a + 1) n.
Proof.
  intros. unfold rdm. cbn [seq map]. f_equal; [f_equal; lia|].
  rewrite <- seq_shift, map_map. apply map_ext. intros; f_equal; lia.
Qed.

Lemma rdm_app : forall p m a q, rdm m a (p + q) = rdm m a p ++ rdm m (a + Z.of_nat p) q.
Proof.
  induction p; intros m a q.
  - replace (a + Z.of_nat 0) with a by lia. reflexivity.
  - change (S p + q)%nat with (S (p + q)). rewrite !rdm_S, IHp.
    replace (a + 1 + Z.of_nat p) with (a + Z.of_nat (S p)) by lia. reflexivity.
Qed.

Lemma firstn_rdm : forall p m a n, (p <= n)%nat -> firstn p (rdm m a n) = rdm m a p.
Proof.
  intros p m a n H. replace n with (p + (n - p))%nat by lia. rewrite rdm_app.
  rewrite firstn_app, rdm_len, Nat.sub_diag. cbn [firstn]. rewrite app_nil_r.
  rewrite <- (rdm_len m a p) at 1. apply firstn_all.
Qed.

Lemma skipn_rdm : forall p m a n, (p <= n)%nat ->
  skipn p (rdm m a n) = rdm m (a + Z.of_nat p) (n - p).
Proof.
  intros p m a n H. replace n with (p + (n - p))%nat at 1 by lia. rewrite rdm_app.
  rewrite skipn_app, rdm_len, Nat.sub_diag. cbn [skipn].
  rewrite <- (rdm_len m a p) at 1. now rewrite skipn_all.
Qed.

Lemma nth_rdm : forall n m a i, (i < n)%nat -> nth i (rdm m a n) 0 = m (a + Z.of_nat i).
Proof.
  induction n; intros m a i H; [lia|]. rewrite rdm_S. destruct i.
  - cbn [nth]. f_equal; lia.
  - cbn [nth]. rewrite IHn by lia. f_equal; lia.
Qed.

Lemma wrm_out : forall m a b x, ~ (a <= x < a + zlen b) -> wrm m a b x = m x.
Proof.
  intros; unfold wrm. destruct ((a <=? x) && (x <? a + zlen b)) eqn:E; [lia|reflexivity].
Qed.

Lemma wrm_in : forall m a b x, a <= x < a + zlen b ->
  wrm m a b x = nth (Z.to_nat (x - a)) b 0.
Proof.
  intros; unfold wrm. replace ((a <=? x) && (x <? a + zlen b)) with true by lia. reflexivity.
Qed.

Lemma rdm_wrm_same : forall b m a n, n = length b -> rdm (wrm m a b) a n = b.
Proof.
  intros b m a n ->. apply (nth_ext _ _ 0 0); rewrite rdm_len; [reflexivity|].
  intros i Hi. rewrite nth_rdm by assumption. rewrite wrm_in by (unfold zlen; lia).
  f_equal. lia.
Qed.

Lemma rdm_wrm_disj : forall m a b c n,
  a + zlen b <= c \/ c + Z.of_nat n <= a -> rdm (wrm m a b) c n = rdm m c n.
Proof. intros. apply rdm_ext. intros. apply wrm_out. lia. Qed.

Lemma zlen_rdm : forall m a n, zlen (rdm m a n) = Z.of_nat n.
Proof. intros; unfold zlen; now rewrite rdm_len. Qed.

Lemma skipn_plus : forall A p q (l : list A), skipn p (skipn q l) = skipn (q + p) l.
Proof.
  induction q; intros l; [reflexivity|]. destruct l; [now rewrite !skipn_nil|]. cbn [skipn Nat.add]. apply IHq.
Qed.

(* ------------------------------------------------------------------ *)
(* The specification. *)
Lemma swap_widths_len : forall ws b, length (swap_widths ws b) = length b.
Proof.
  induction ws; intros; cbn [swap_widths]; [reflexivity|].
  rewrite app_length, rev_length, IHws, <- app_length, firstn_skipn. reflexivity.
Qed.

Lemma swap_widths_app : forall ws a b, length a = total ws ->
  swap_widths ws (a ++ b) = swap_widths ws a ++ b.
Proof.
  induction ws; intros x b H; cbn [swap_widths total fold_right] in *.
  - destruct x; [reflexivity|discriminate].
  - rewrite firstn_app, skipn_app.
    replace (a - length x)%nat with 0%nat by lia. cbn [firstn skipn].
    rewrite app_nil_r, IHws; [now rewrite app_assoc|].
    rewrite skipn_length, H. unfold total. lia.
Qed.

Lemma swap_widths_app_ws : forall w1 w2 b, (total w1 <= length b)%nat ->
  swap_widths (w1 ++ w2) b
  = swap_widths w1 (firstn (total w1) b) ++ swap_widths w2 (skipn (total w1) b).
Proof.
  induction w1; intros w2 b H; cbn [swap_widths app total fold_right] in *; [reflexivity|].
  fold (total w1) in *.
  rewrite IHw1 by (rewrite skipn_length; lia).
  rewrite firstn_firstn, Nat.min_l by lia.
  rewrite app_assoc. f_equal; [|f_equal; now rewrite skipn_plus].
  f_equal. f_equal. now rewrite skipn_firstn_comm, (Nat.add_comm a), Nat.add_sub.
Qed.

Lemma swap_widths_invol : forall ws b, (total ws <= length b)%nat ->
  swap_widths ws (swap_widths ws b) = b.
Proof.
  induction ws; intros b H; cbn [swap_widths total fold_right] in *; [reflexivity|].
  fold (total ws) in *.
  assert (L : length (rev (firstn a b)) = a) by (rewrite rev_length, firstn_length; lia).
  rewrite firstn_app, skipn_app, L, Nat.sub_diag. cbn [firstn skipn].
  rewrite app_nil_r. rewrite <- L at 1. rewrite firstn_all, rev_involutive.
  rewrite <- L at 2. rewrite skipn_all. cbn [app].
  rewrite IHws by (rewrite skipn_length; lia). apply firstn_skipn.
Qed.

Lemma swap_records_len : forall ws n b, length (swap_records ws n b) = length b.
Proof.
  induction n; intros; cbn [swap_records]; [reflexivity|].
  rewrite app_length, swap_widths_len, IHn, <- app_length, firstn_skipn. reflexivity.
Qed.

Lemma swap_records_invol : forall ws n b, length b = (n * total ws)%nat ->
  swap_records ws n (swap_records ws n b) = b.
Proof.
  induction n; intros b H; cbn [swap_records]; [reflexivity|].
  cbn [Nat.mul] in H.
  assert (L : length (swap_widths ws (firstn (total ws) b)) = total ws)
    by (rewrite swap_widths_len, firstn_length; lia).
  rewrite firstn_app, skipn_app, L, Nat.sub_diag. cbn [firstn skipn]. rewrite app_nil_r.
  rewrite <- L at 1. rewrite firstn_all. rewrite swap_widths_invol by (rewrite firstn_length; lia).
  rewrite <- L at 2. rewrite skipn_all. cbn [app].
  rewrite IHn by (rewrite skipn_length; lia). apply firstn_skipn.
Qed.

Lemma swap_records_snoc : forall ws n a b,
  length a = (n * total ws)%nat -> length b = total ws ->
  swap_records ws (S n) (a ++ b) = swap_records ws n a ++ swap_widths ws b.
Proof.
  induction n; intros a b Ha Hb.
  - destruct a; [|discriminate]. cbn [swap_records app].
    rewrite <- Hb, firstn_all, skipn_all. apply app_nil_r.
  - change (swap_records ws (S (S n)) (a ++ b))
      with (swap_widths ws (firstn (total ws) (a ++ b)) ++ swap_records ws (S n) (skipn (total ws) (a ++ b))).
    cbn [Nat.mul] in Ha.
    rewrite firstn_app, skipn_app.
    replace (total ws - length a)%nat with 0%nat by lia. cbn [firstn skipn]. rewrite app_nil_r.
    rewrite IHn by (try rewrite skipn_length; lia).
    cbn [swap_records]. now rewrite app_assoc.
Qed.

Lemma swap_widths_ones : forall n ws b, (n <= length b)%nat ->
  swap_widths (repeat 1%nat n ++ ws) b = firstn n b ++ swap_widths ws (skipn n b).
Proof.
  induction n; intros ws b H; [reflexivity|].
  destruct b as [|x b]; [cbn [length] in H; lia|].
  cbn [repeat app swap_widths firstn skipn rev]. rewrite IHn by (cbn [length] in H; lia).
  reflexivity.
Qed.

(* ------------------------------------------------------------------ *)
(* Record conversion. *)
Definition widths_of (fs : list fld) : list nat :=
  flat_map (fun f => if f_swp f then [f_w f] else repeat 1%nat (f_w f)) fs.
Fixpoint contig (o : Z) (fs : list fld) : bool :=
  match fs with
  | [] => true
  | f :: r => (f_off f =? o) && contig (o + Z.of_nat (f_w f)) r
  end.

Lemma total_app : forall a b, total (a ++ b) = (total a + total b)%nat.
Proof. induction a as [|w a IH]; intros b; [reflexivity|]. unfold total in *. cbn [app fold_right]. rewrite IH. lia. Qed.
Lemma total_ones : forall n, total (repeat 1%nat n) = n.
Proof. induction n; cbn [repeat total fold_right]; [reflexivity|]. unfold total in IHn. rewrite IHn. reflexivity. Qed.

Lemma cvt_flds_ok : forall fs o m d s,
  contig o fs = true ->
  let T := total (widths_of fs) in
  (d <= s \/ s + Z.of_nat T <= d) ->
  let m' := fold_left (cvt_fld d s) fs m in
  rdm m' (d + o) T = swap_widths (widths_of fs) (rdm m (s + o) T) /\
  (forall x, ~ (d + o <= x < d + o + Z.of_nat T) -> m' x = m x).
Proof.
  induction fs as [|f fs IH]; intros o m d s C T Hd m'.
  - subst T m'. cbn. split; [reflexivity|auto].
  - cbn [contig] in C. apply andb_prop in C as [Co C]. apply Z.eqb_eq in Co.
    set (w := f_w f) in *. set (T' := total (widths_of fs)).
    assert (ET : T = (w + T')%nat).
    { subst T T' w. unfold widths_of. cbn [flat_map]. fold (widths_of fs).
      rewrite total_app. destruct (f_swp f); [cbn; lia|rewrite total_ones; lia]. }
    set (m1 := cvt_fld d s m f).
    assert (Em : m' = fold_left (cvt_fld d s) fs m1) by reflexivity.
    specialize (IH (o + Z.of_nat w) m1 d s C). cbn zeta in IH. fold T' in IH.
    destruct IH as [R F]; [lia|].
    rewrite <- Em in R, F.
    set (v := rdm m (s + o) w) in *.
    assert (E1 : exists vv : bytes, vv = (if f_swp f then rev v else v) /\ m1 = wrm m (d + o) vv).
    { eexists. split; [reflexivity|]. unfold m1, cvt_fld. rewrite Co. reflexivity. }
    destruct E1 as (vv & Ev & E1).
    assert (Lv : zlen vv = Z.of_nat w).
    { rewrite Ev. destruct (f_swp f); [rewrite zlen_rev|]; apply zlen_rdm. }
    split.
    + rewrite ET, !rdm_app. rewrite <- !Z.add_assoc, R.
      assert (A1 : rdm m' (d + o) w = vv).
      { rewrite (rdm_ext _ m1) by (intros; apply F; lia).
        rewrite E1. apply rdm_wrm_same. apply Nat2Z.inj. rewrite <- Lv. reflexivity. }
      rewrite A1.
      assert (A2 : rdm m1 (s + (o + Z.of_nat w)) T' = rdm m (s + (o + Z.of_nat w)) T').
      { rewrite E1. apply rdm_wrm_disj. rewrite Lv. lia. }
      rewrite A2, Ev. fold v.
      assert (Lv' : length v = w) by (unfold v; apply rdm_len).
      unfold widths_of at 2. cbn [flat_map]. fold (widths_of fs). fold w.
      destruct (f_swp f).
      * cbn [app swap_widths]. rewrite firstn_app, skipn_app.
        rewrite Lv', Nat.sub_diag. cbn [firstn skipn]. rewrite app_nil_r.
        rewrite <- Lv', firstn_all, skipn_all. reflexivity.
      * rewrite swap_widths_ones by (rewrite app_length; lia).
        rewrite firstn_app, skipn_app.
        rewrite Lv', Nat.sub_diag. cbn [firstn skipn]. rewrite app_nil_r.
        rewrite <- Lv', firstn_all, skipn_all. reflexivity.
    + intros x Hx. rewrite F by lia. rewrite E1. apply wrm_out. rewrite Lv. lia.
Qed.

Lemma cvt_rec_ok : forall fs m d s,
  contig 0 fs = true ->
  let T := total (widths_of fs) in
  (d <= s \/ s + Z.of_nat T <= d) ->
  rdm (cvt_rec fs m d s) d T = swap_widths (widths_of fs) (rdm m s T) /\
  (forall x, ~ (d <= x < d + Z.of_nat T) -> cvt_rec fs m d s x = m x).
Proof.
  intros fs m d s C T H. destruct (cvt_flds_ok fs 0 m d s C H) as [R F].
  fold T in R, F. replace (d + 0) with d in R, F by lia. replace (s + 0) with s in R by lia.
  split; [exact R|exact F].
Qed.

Lemma cvt_recs_ok : forall n fs m d s,
  contig 0 fs = true ->
  let T := total (widths_of fs) in
  (d <= s \/ s + Z.of_nat (n * T) <= d) ->
  let m' := cvt_recs n (Z.of_nat T) fs m d s in
  rdm m' d (n * T) = swap_records (widths_of fs) n (rdm m s (n * T)) /\
  (forall x, ~ (d <= x < d + Z.of_nat (n * T)) -> m' x = m x).
Proof.
  induction n; intros fs m d s C T H m'.
  - split; [reflexivity|auto].
  - cbn [cvt_recs] in m'. fold T in m'. set (m1 := cvt_rec fs m d s) in *.
    destruct (cvt_rec_ok fs m d s C) as [R1 F1]; [fold T; cbn [Nat.mul] in H; lia|].
    fold T in R1, F1. fold m1 in R1, F1.
    destruct (IHn fs m1 (d + Z.of_nat T) (s + Z.of_nat T) C) as [R2 F2];
      [fold T; cbn [Nat.mul] in H; lia|].
    fold T in R2, F2. fold m' in R2, F2.
    cbn [Nat.mul]. split.
    + rewrite rdm_app, R2. cbn [swap_records]. fold T.
      rewrite firstn_rdm, skipn_rdm by lia. replace (T + n * T - T)%nat with (n * T)%nat by lia.
      f_equal.
      * rewrite (rdm_ext _ m1) by (intros; apply F2; lia). exact R1.
      * f_equal. apply rdm_ext. intros. apply F1. cbn [Nat.mul] in H. lia.
    + intros x Hx. rewrite F2 by lia. apply F1. lia.
Qed.

Lemma cvt_struct_ok : forall sz fs ws m d s len,
  contig 0 fs = true -> widths_of fs = ws -> sz = Z.of_nat (total ws) -> 0 < sz ->
  0 <= len -> len mod sz = 0 ->
  (d <= s \/ s + len <= d) ->
  let m' := cvt_struct sz fs m d s len in
  rdm m' d (Z.to_nat len) = swap_records ws (Z.to_nat (len / sz)) (rdm m s (Z.to_nat len)) /\
  (forall x, ~ (d <= x < d + len) -> m' x = m x).
Proof.
  intros sz fs ws m d s len C W Hsz Hp Hl Hm Hd m'. subst ws.
  set (n := Z.to_nat (len / sz)).
  assert (E : len = sz * (len / sz)) by (apply Z.div_exact; lia).
  assert (N : Z.to_nat len = (n * total (widths_of fs))%nat).
  { subst n. assert (0 <= len / sz) by (apply Z.div_pos; lia). rewrite E, Hsz at 1. nia. }
  assert (LZ : Z.of_nat (n * total (widths_of fs)) = len) by lia.
  pose proof (cvt_recs_ok n fs m d s C) as P. cbn zeta in P. rewrite LZ in P.
  specialize (P Hd). rewrite <- Hsz in P. destruct P as [R F].
  rewrite N. split; [exact R|exact F].
Qed.

(* Fundamental types. *)
Lemma cvt_fund_up_ok : forall n w m d s, (d <= s) ->
  let m' := cvt_fund_up n w m d s in
  rdm m' d (n * w) = swap_records [w] n (rdm m s (n * w)) /\
  (forall x, ~ (d <= x < d + Z.of_nat (n * w)) -> m' x = m x).
Proof.
  induction n; intros w m d s H m'; [split; [reflexivity|auto]|].
  cbn [cvt_fund_up] in m'. set (m1 := wrm m d (rev (rdm m s w))) in *.
  assert (F1 : forall x, ~ (d <= x < d + Z.of_nat w) -> m1 x = m x).
  { intros. apply wrm_out. rewrite zlen_rev, zlen_rdm. lia. }
  destruct (IHn w m1 (d + Z.of_nat w) (s + Z.of_nat w) ltac:(lia)) as [R2 F2].
  fold m' in R2, F2. cbn [Nat.mul]. split.
  - rewrite rdm_app, R2. cbn [swap_records]. cbn [total fold_right]. rewrite Nat.add_0_r.
    rewrite firstn_rdm, skipn_rdm by lia. replace (w + n * w - w)%nat with (n * w)%nat by lia.
    f_equal.
    + rewrite (rdm_ext _ m1) by (intros; apply F2; lia).
      cbn [swap_widths]. rewrite firstn_rdm, skipn_rdm, Nat.sub_diag by lia.
      unfold rdm at 3. cbn [seq map]. rewrite app_nil_r.
      apply rdm_wrm_same. now rewrite rev_length, rdm_len.
    + f_equal. apply rdm_ext. intros. apply F1. lia.
  - intros x Hx. rewrite F2 by lia. apply F1. lia.
Qed.

Lemma cvt_fund_down_ok : forall n w m d s, (s <= d) ->
  let m' := cvt_fund_down n w m d s in
  let L := Z.of_nat (n * w) in
  rdm m' (d - L) (n * w) = swap_records [w] n (rdm m (s - L) (n * w)) /\
  (forall x, ~ (d - L <= x < d) -> m' x = m x).
Proof.
  induction n; intros w m d s H m' L; [split; [reflexivity|auto]|].
  cbn [cvt_fund_down] in m'. set (W := Z.of_nat w) in *.
  set (m1 := wrm m (d - W) (rev (rdm m (s - W) w))) in *.
  assert (F1 : forall x, ~ (d - W <= x < d) -> m1 x = m x).
  { intros. apply wrm_out. rewrite zlen_rev, zlen_rdm. lia. }
  destruct (IHn w m1 (d - W) (s - W) ltac:(lia)) as [R2 F2].
  fold m' in R2, F2. set (K := Z.of_nat (n * w)) in *.
  assert (EL : L = W + K) by (subst L W K; cbn [Nat.mul]; lia).
  assert (ES : (S n * w = n * w + w)%nat) by (cbn [Nat.mul]; lia).
  split.
  - rewrite ES, !rdm_app. fold K.
    rewrite swap_records_snoc by (rewrite rdm_len; cbn [total fold_right]; lia).
    replace (d - L) with (d - W - K) by lia. rewrite R2.
    replace (s - L) with (s - W - K) by lia.
    f_equal.
    + f_equal. apply rdm_ext. intros. apply F1. lia.
    + replace (d - W - K + K) with (d - W) by lia. replace (s - W - K + K) with (s - W) by lia.
      rewrite (rdm_ext _ m1) by (intros; apply F2; lia).
      cbn [swap_widths]. rewrite firstn_rdm, skipn_rdm, Nat.sub_diag by lia.
      unfold rdm at 3. cbn [seq map]. rewrite app_nil_r.
      apply rdm_wrm_same. now rewrite rev_length, rdm_len.
  - intros x Hx. rewrite F2 by lia. apply F1. lia.
Qed.

Lemma cvt_fund_ok : forall w m d s len,
  (0 < w)%nat -> 0 <= len -> len mod (Z.of_nat w) = 0 ->
  let m' := cvt_fund w m d s len in
  rdm m' d (Z.to_nat len) = swap_records [w] (Z.to_nat (len / Z.of_nat w)) (rdm m s (Z.to_nat len)) /\
  (forall x, ~ (d <= x < d + len) -> m' x = m x).
Proof.
  intros w m d s len Hw Hl Hm m'. unfold m', cvt_fund.
  set (n := Z.to_nat (len / Z.of_nat w)).
  assert (E : len = Z.of_nat w * (len / Z.of_nat w)) by (apply Z.div_exact; lia).
  assert (N : Z.to_nat len = (n * w)%nat).
  { subst n. assert (0 <= len / Z.of_nat w) by (apply Z.div_pos; lia). rewrite E at 1. nia. }
  assert (LZ : Z.of_nat (n * w) = len) by lia.
  rewrite N. destruct (d <? s) eqn:C.
  - destruct (cvt_fund_up_ok n w m d s ltac:(lia)) as [R F]. rewrite LZ in F. split; assumption.
  - destruct (cvt_fund_down_ok n w m (d + len) (s + len) ltac:(lia)) as [R F].
    cbn zeta in R, F. rewrite LZ in R, F.
    replace (d + len - len) with d in R, F by lia. replace (s + len - len) with s in R by lia.
    split; assumption.
Qed.

(* memmove. *)
Lemma memmove_ok : forall m d s len, 0 <= len ->
  rdm (memmove m d s len) d (Z.to_nat len) = rdm m s (Z.to_nat len) /\
  (forall x, ~ (d <= x < d + len) -> memmove m d s len x = m x).
Proof.
  intros m d s len H. unfold memmove. split.
  - apply rdm_wrm_same. now rewrite rdm_len.
  - intros x Hx. apply wrm_out. rewrite zlen_rdm. lia.
Qed.

Lemma swap_records_1 : forall n b, length b = n -> swap_records [1%nat] n b = b.
Proof.
  induction n; intros b H; [reflexivity|]. destruct b as [|x b]; [discriminate|].
  cbn [swap_records total fold_right Nat.add firstn swap_widths skipn rev app].
  rewrite IHn by (cbn in H; lia). reflexivity.
Qed.
