From Coq Require Import String.
From Verif Require Import Base ElfErr GelfModel GelfSpec.
Local Open Scope Z_scope.

Lemma zlen_enc : forall le w v, 0 <= w -> zlen (enc le w v) = w.
Proof. intros le w v W; unfold enc, zlen; destruct le; rewrite ?le_bytes_length, ?be_bytes_length; lia. Qed.
Lemma pow256 : forall w, 0 <= w -> 256 ^ w = 2 ^ (8 * w).
Proof. intros w W; rewrite Z.pow_mul_r by lia; reflexivity. Qed.
Lemma dec_enc : forall le w v, 0 <= w -> dec le (enc le w v) = v mod 2 ^ (8 * w).
Proof. intros le w v W; unfold dec, enc; destruct le; rewrite ?le_value_bytes, ?be_value_bytes, Z2Nat.id, pow256 by lia; reflexivity. Qed.
Lemma enc_dec : forall le b, bytes_ok b -> enc le (zlen b) (dec le b) = b.
Proof. intros le b B; unfold dec, enc, zlen; destruct le; rewrite Nat2Z.id; [apply le_bytes_value | apply be_bytes_value]; exact B. Qed.
Lemma dec_bound : forall le b, bytes_ok b -> 0 <= dec le b < 2 ^ (8 * zlen b).
Proof.
  intros le b B; rewrite <- pow256 by apply zlen_nonneg; unfold dec, be_value; destruct le; [apply le_value_bound; exact B|].
  rewrite <- (zlen_rev _ b); apply le_value_bound, Forall_rev, B.
Qed.

Lemma zlist_ext : forall (a b : bytes), zlen a = zlen b -> (forall i, 0 <= i < zlen a -> znth a i = znth b i) -> a = b.
Proof.
  induction a as [|x a IH]; intros [|y b] L E; unfold zlen in L; cbn [length] in L; try lia; [reflexivity|].
  f_equal.
  - specialize (E 0); rewrite !znth_0 in E; rewrite zlen_cons in E; pose proof (zlen_nonneg _ a); specialize (E ltac:(lia)); congruence.
  - apply IH; [unfold zlen; lia|]; intros i II; specialize (E (i + 1)); rewrite !znth_succ in E by lia; apply E; rewrite zlen_cons; lia.
Qed.

Lemma zlen_bput : forall buf o b, 0 <= o -> o + zlen b <= zlen buf -> zlen (bput buf o b) = zlen buf.
Proof. intros buf o b O L; unfold bput; pose proof (zlen_nonneg _ b); rewrite !zlen_app, !zsub_length by lia; lia. Qed.
Lemma znth_bput : forall buf o b i, 0 <= o -> o + zlen b <= zlen buf -> znth (bput buf o b) i = if (o <=? i) && (i <? o + zlen b) then znth b (i - o) else znth buf i.
Proof.
  intros buf o b i O L; pose proof (zlen_nonneg _ b) as NB.
  destruct (Z_lt_le_dec i 0) as [C|C].
  { replace ((o <=? i) && (i <? o + zlen b)) with false by lia; rewrite !znth_out by lia; reflexivity. }
  unfold bput.
  assert (L0 : zlen (zsub buf 0 o) = o) by (apply zsub_length; lia).
  destruct (Z_lt_le_dec i o) as [C1|C1].
  { replace ((o <=? i) && (i <? o + zlen b)) with false by lia.
    rewrite znth_app_l by lia; rewrite znth_zsub by lia; replace (0 + i) with i by lia; reflexivity. }
  rewrite znth_app_r by lia; rewrite L0.
  destruct (Z_lt_le_dec i (o + zlen b)) as [C2|C2].
  { replace ((o <=? i) && (i <? o + zlen b)) with true by lia; rewrite znth_app_l by lia; reflexivity. }
  replace ((o <=? i) && (i <? o + zlen b)) with false by lia.
  rewrite znth_app_r by lia.
  destruct (Z_lt_le_dec i (zlen buf)) as [C3|C3].
  - rewrite znth_zsub by lia; f_equal; lia.
  - rewrite !znth_out; try reflexivity; rewrite ?zsub_length by lia; lia.
Qed.
Lemma zsub_bput_same : forall buf o b, 0 <= o -> o + zlen b <= zlen buf -> zsub (bput buf o b) o (zlen b) = b.
Proof.
  intros buf o b O L; pose proof (zlen_nonneg _ b); assert (LL := zlen_bput buf o b O L).
  apply zlist_ext; [apply zsub_length; lia|]; rewrite zsub_length by lia; intros i II.
  rewrite znth_zsub by lia; rewrite znth_bput by lia; replace ((o <=? o + i) && (o + i <? o + zlen b)) with true by lia; f_equal; lia.
Qed.
Lemma zsub_bput_other : forall buf o b p w, 0 <= o -> o + zlen b <= zlen buf -> 0 <= p -> 0 <= w -> p + w <= zlen buf -> p + w <= o \/ o + zlen b <= p -> zsub (bput buf o b) p w = zsub buf p w.
Proof.
  intros buf o b p w O L P W PW D; assert (LL := zlen_bput buf o b O L).
  apply zlist_ext; [rewrite !zsub_length by lia; reflexivity|]; rewrite zsub_length by lia; intros i II.
  rewrite !znth_zsub by lia; rewrite znth_bput by lia; replace ((o <=? p + i) && (p + i <? o + zlen b)) with false by lia; reflexivity.
Qed.
Lemma bput_id : forall buf o w, 0 <= o -> 0 <= w -> o + w <= zlen buf -> bput buf o (zsub buf o w) = buf.
Proof.
  intros buf o w O W L; assert (LW : zlen (zsub buf o w) = w) by (apply zsub_length; lia).
  apply zlist_ext; [apply zlen_bput; lia|]; rewrite zlen_bput by lia; intros i II.
  rewrite znth_bput by lia; rewrite LW; destruct ((o <=? i) && (i <? o + w)) eqn:E; [|reflexivity].
  rewrite znth_zsub by lia; f_equal; lia.
Qed.
Lemma zsub_ok : forall buf o w, bytes_ok buf -> bytes_ok (zsub buf o w).
Proof. intros buf o w B; unfold zsub, bytes_ok in *; rewrite <- (firstn_skipn (Z.to_nat o) buf) in B; apply Forall_app in B; destruct B as [_ B]; rewrite <- (firstn_skipn (Z.to_nat w) (skipn _ buf)) in B; apply Forall_app in B; apply B. Qed.

(* layouts *)
Fixpoint wfl (l : layout) (sz : Z) : bool :=
  match l with
  | [] => true
  | f :: l => (0 <=? g_off f) && (1 <=? g_w f) && (g_w f <=? 8) && (g_off f + g_w f <=? sz) && forallb (fun g => (g_off g + g_w g <=? g_off f) || (g_off f + g_w f <=? g_off g)) l && wfl l sz
  end.
Lemma wf_lay : forall c64 k, wfl (lay c64 k) (size c64 k) = true.
Proof. intros [|] k; destruct k; vm_compute; reflexivity. Qed.
Lemma wf_in : forall l sz f, wfl l sz = true -> In f l -> 0 <= g_off f /\ 1 <= g_w f <= 8 /\ g_off f + g_w f <= sz.
Proof. induction l as [|g l IH]; intros sz f W X; [easy|]; cbn [wfl] in W; destruct X as [->|X]; [lia | apply (IH sz); [lia | exact X]]. Qed.

Definition okv (f : gfld) (x : Z) : Prop := of_type (g_w f) (g_sgn f) x.

Lemma rd_same : forall le buf base f v, 0 <= base + g_off f -> 1 <= g_w f -> base + g_off f + g_w f <= zlen buf -> okv f v -> rd_fld le (wr_fld le buf base f v) base f = v.
Proof.
  intros le buf base f v O W L V; unfold rd_fld, wr_fld; cbv zeta.
  assert (LE := zlen_enc le (g_w f) v ltac:(lia)).
  assert (ZS : zsub (bput buf (base + g_off f) (enc le (g_w f) v)) (base + g_off f) (g_w f) = enc le (g_w f) v) by (pose proof (zsub_bput_same buf (base + g_off f) (enc le (g_w f) v) ltac:(lia) ltac:(lia)) as X; rewrite LE in X; exact X).
  rewrite ZS, dec_enc by lia.
  unfold okv, of_type in V; destruct (g_sgn f).
  - unfold sgn.
    assert (P : 2 ^ (8 * g_w f) = 2 * 2 ^ (8 * g_w f - 1)) by (rewrite <- Z.pow_succ_r by lia; f_equal; lia).
    destruct (Z_lt_le_dec v 0).
    + replace (v mod 2 ^ (8 * g_w f)) with (v + 2 ^ (8 * g_w f)) by (rewrite <- (Z_mod_plus_full v 1); rewrite Z.mod_small by lia; lia).
      destruct (v + 2 ^ (8 * g_w f) <? 2 ^ (8 * g_w f - 1)) eqn:E; lia.
    + rewrite Z.mod_small by lia; destruct (v <? 2 ^ (8 * g_w f - 1)) eqn:E; lia.
  - apply Z.mod_small; lia.
Qed.
Lemma rd_other : forall le buf base f v g, 0 <= base + g_off f -> 1 <= g_w f -> base + g_off f + g_w f <= zlen buf -> 0 <= base + g_off g -> 1 <= g_w g -> base + g_off g + g_w g <= zlen buf ->
  g_off g + g_w g <= g_off f \/ g_off f + g_w f <= g_off g -> rd_fld le (wr_fld le buf base f v) base g = rd_fld le buf base g.
Proof.
  intros le buf base f v g O W L O' W' L' D; unfold rd_fld, wr_fld; cbv zeta.
  rewrite zsub_bput_other; [reflexivity | rewrite ?zlen_enc by lia; lia ..].
Qed.
Lemma zlen_wr : forall le buf base f v, 0 <= base + g_off f -> 1 <= g_w f -> base + g_off f + g_w f <= zlen buf -> zlen (wr_fld le buf base f v) = zlen buf.
Proof. intros le buf base f v O W L; unfold wr_fld; apply zlen_bput; rewrite ?zlen_enc by lia; lia. Qed.

Lemma zlen_wr_rec : forall le l sz buf base vs, wfl l sz = true -> 0 <= base -> base + sz <= zlen buf -> zlen (wr_rec le l buf base vs) = zlen buf.
Proof.
  intros le l sz; induction l as [|f l IH]; intros buf base [|v vs] W B L; cbn [wr_rec]; try reflexivity.
  cbn [wfl] in W.
  assert (Z1 := zlen_wr le buf base f v ltac:(lia) ltac:(lia) ltac:(lia)).
  rewrite IH; lia.
Qed.
Lemma rd_wr_other : forall le l sz buf base vs g, wfl l sz = true -> 0 <= base -> base + sz <= zlen buf -> 0 <= g_off g -> 1 <= g_w g -> g_off g + g_w g <= sz ->
  forallb (fun f => (g_off f + g_w f <=? g_off g) || (g_off g + g_w g <=? g_off f)) l = true -> rd_fld le (wr_rec le l buf base vs) base g = rd_fld le buf base g.
Proof.
  intros le l sz; induction l as [|f l IH]; intros buf base [|v vs] g W B L G1 G2 G3 D; cbn [wr_rec]; try reflexivity.
  cbn [wfl] in W; cbn [forallb] in D.
  assert (Z1 := zlen_wr le buf base f v ltac:(lia) ltac:(lia) ltac:(lia)).
  rewrite IH by lia; apply rd_other; lia.
Qed.
Lemma rd_wr_rec : forall le l sz buf base vs, wfl l sz = true -> 0 <= base -> base + sz <= zlen buf -> Forall2 okv l vs -> rd_rec le l (wr_rec le l buf base vs) base = vs.
Proof.
  intros le l sz; induction l as [|f l IH]; intros buf base vs W B L F; inversion F as [|f' v l' vs' V FV]; subst; [reflexivity|].
  cbn [wr_rec]; unfold rd_rec in *; cbn [map]; cbn [wfl] in W.
  assert (Z1 := zlen_wr le buf base f v ltac:(lia) ltac:(lia) ltac:(lia)).
  f_equal.
  - rewrite (rd_wr_other le l sz) by lia; apply rd_same; try lia; exact V.
  - apply IH; try lia; exact FV.
Qed.
Lemma znth_wr_rec : forall le l sz buf base vs i, wfl l sz = true -> 0 <= base -> base + sz <= zlen buf -> ~ (base <= i < base + sz) -> znth (wr_rec le l buf base vs) i = znth buf i.
Proof.
  intros le l sz; induction l as [|f l IH]; intros buf base [|v vs] i W B L II; cbn [wr_rec]; try reflexivity.
  cbn [wfl] in W.
  assert (Z1 := zlen_wr le buf base f v ltac:(lia) ltac:(lia) ltac:(lia)).
  rewrite IH by lia; unfold wr_fld; assert (LE := zlen_enc le (g_w f) v ltac:(lia)); rewrite znth_bput by lia; rewrite LE.
  replace ((base + g_off f <=? i) && (i <? base + g_off f + g_w f)) with false by lia; reflexivity.
Qed.
Lemma enc_mod : forall le w x y, 0 <= w -> x mod 2 ^ (8 * w) = y mod 2 ^ (8 * w) -> enc le w x = enc le w y.
Proof.
  intros le w x y W E.
  assert (BX : bytes_ok (enc le w x) /\ bytes_ok (enc le w y)) by (unfold enc; destruct le; split; (apply le_bytes_ok || apply be_bytes_ok)).
  rewrite <- (enc_dec le (enc le w x)) by apply BX; rewrite <- (enc_dec le (enc le w y)) by apply BX; rewrite !dec_enc, !zlen_enc by lia; rewrite E; reflexivity.
Qed.
Lemma wr_id : forall le buf base f, bytes_ok buf -> 0 <= base + g_off f -> 1 <= g_w f -> base + g_off f + g_w f <= zlen buf -> wr_fld le buf base f (rd_fld le buf base f) = buf.
Proof.
  intros le buf base f B O W L; unfold wr_fld, rd_fld; cbv zeta.
  set (b := zsub buf (base + g_off f) (g_w f)).
  assert (LB : zlen b = g_w f) by (apply zsub_length; lia).
  assert (OB : bytes_ok b) by (apply zsub_ok, B).
  assert (E : enc le (g_w f) (if g_sgn f then sgn (g_w f) (dec le b) else dec le b) = b).
  { transitivity (enc le (g_w f) (dec le b)); [|rewrite <- LB; apply enc_dec, OB].
    destruct (g_sgn f); [|reflexivity]; apply enc_mod; [lia|]; unfold sgn; destruct (_ <? _); [reflexivity|].
    rewrite <- (Z_mod_plus_full _ 1); f_equal; lia. }
  rewrite E; apply bput_id; lia.
Qed.
Lemma wr_rec_id : forall le l sz buf base, wfl l sz = true -> bytes_ok buf -> 0 <= base -> base + sz <= zlen buf -> wr_rec le l buf base (rd_rec le l buf base) = buf.
Proof.
  intros le l sz; induction l as [|f l IH]; intros buf base W B O L; [reflexivity|].
  unfold rd_rec in *; cbn [map wr_rec]; cbn [wfl] in W; rewrite wr_id by (exact B || lia); apply IH; (exact B || lia).
Qed.
Lemma rd_ok : forall le l sz buf base, wfl l sz = true -> bytes_ok buf -> 0 <= base -> base + sz <= zlen buf -> Forall2 okv l (rd_rec le l buf base).
Proof.
  intros le l sz; induction l as [|f l IH]; intros buf base W B O L; [constructor|].
  unfold rd_rec in *; cbn [map]; cbn [wfl] in W; constructor; [|apply IH; (exact B || lia)].
  unfold okv, of_type, rd_fld; cbv zeta.
  set (b := zsub buf (base + g_off f) (g_w f)).
  assert (LB : zlen b = g_w f) by (apply zsub_length; lia).
  assert (D := dec_bound le b (zsub_ok _ _ _ B)); rewrite LB in D.
  assert (P : 2 ^ (8 * g_w f) = 2 * 2 ^ (8 * g_w f - 1)) by (rewrite <- Z.pow_succ_r by lia; f_equal; lia).
  destruct (g_sgn f); [|lia]; unfold sgn; destruct (_ <? _) eqn:E; lia.
Qed.

(* the conversions *)
Ltac vals v F := repeat match goal with H : Forall2 _ (_ :: _) _ |- _ => inversion H; subst; clear H | H : Forall2 _ [] _ |- _ => inversion H; subst; clear H end.
Lemma record_lay : forall k v, is_record k v <-> Forall2 okv (lay64 k) v.
Proof.
  intros k v; unfold is_record.
  assert (E : map (fun f => (g_w f, g_sgn f)) (lay64 k) = map snd (decl64 k)) by (destruct k; vm_compute; reflexivity).
  assert (X : forall (ws : list (Z * bool)) l (d : decl), map (fun f => (g_w f, g_sgn f)) l = ws -> map snd d = ws -> forall v, Forall2 (fun d x => of_type (fst (snd d)) (snd (snd d)) x) d v <-> Forall2 okv l v).
  { induction ws as [|[w s] ws IH]; intros [|f l] [|[n [w' s']] d] E1 E2 v'; try discriminate; [split; inversion 1; constructor|].
    cbn in E1, E2; injection E1 as Ea Eb Ec; injection E2 as Ed Ee Ef; subst.
    split; inversion 1; subst; constructor; try assumption; try (apply (IH l d); trivial; fail). }
  apply (X _ _ _ E eq_refl).
Qed.
Lemma info_rt : forall i, 0 <= i < 2 ^ 64 -> i / 2 ^ 32 < 2 ^ 24 -> i mod 2 ^ 32 < 2 ^ 8 -> info64 (info32 i) = i /\ 0 <= info32 i < 2 ^ 32.
Proof. intros i I1 A B; unfold info64, info32, u32, u64; Z.to_euclidean_division_equations; lia. Qed.
Lemma info_tr : forall i, 0 <= i < 2 ^ 32 -> info32 (info64 i) = i /\ 0 <= info64 i < 2 ^ 64 /\ info64 i / 2 ^ 32 < 2 ^ 24 /\ info64 i mod 2 ^ 32 < 2 ^ 8.
Proof.
  intros i I1.
  assert (A : info64 i = i / 256 * 2 ^ 32 + i mod 256) by (unfold info64, u64; apply Z.mod_small; Z.to_euclidean_division_equations; lia).
  assert (Q : 0 <= i / 256 < 2 ^ 24) by (Z.to_euclidean_division_equations; lia).
  assert (R : 0 <= i mod 256 < 256) by (apply Z.mod_pos_bound; lia).
  assert (D : info64 i / 2 ^ 32 = i / 256) by (rewrite A; Z.to_euclidean_division_equations; lia).
  assert (M : info64 i mod 2 ^ 32 = i mod 256) by (rewrite A; Z.to_euclidean_division_equations; lia).
  repeat split; [|lia..].
  unfold info32, u32; rewrite D, M; rewrite (Z.mod_small (i mod 256)) by lia; rewrite Z.mod_small; [|Z.to_euclidean_division_equations; lia].
  Z.to_euclidean_division_equations; lia.
Qed.

Ltac inv2 := repeat match goal with H : Forall2 _ (_ :: _) _ |- _ => inversion H; subst; clear H | H : Forall2 _ [] _ |- _ => inversion H; subst; clear H end.
Ltac okvs := unfold okv, of_type in *; unfold uf, sf in *; cbn [g_w g_sgn] in *.
Ltac pows := change (2 ^ (8 * 1)) with 256 in *; change (2 ^ (8 * 2)) with 65536 in *; change (2 ^ (8 * 4)) with 4294967296 in *; change (2 ^ (8 * 8)) with 18446744073709551616 in *;
  change (2 ^ (8 * 4 - 1)) with 2147483648 in *; change (2 ^ (8 * 8 - 1)) with 9223372036854775808 in *;
  change (2 ^ 32) with 4294967296 in *; change (2 ^ 31) with 2147483648 in *; change (2 ^ 24) with 16777216 in *; change (2 ^ 8) with 256 in *; change (2 ^ 64) with 18446744073709551616 in *.

Lemma too_large_fits : forall k v, is_record k v -> (too_large k v = false <-> fits k v).
Proof.
  intros k v R; apply record_lay in R; destruct k; cbn [lay64 lay32 map app] in R; inv2; okvs; unfold fits, too_large, big, sbig, ibig; cbn [nth_error]; pows; try lia.
  split.
  - intros T i x II EE; destruct II as [<-|[<-|[<-|[]]]]; cbn [nth_error] in EE; injection EE as <-; lia.
  - intros T.
    pose proof (T 19%nat _ ltac:(cbn; tauto) eq_refl); pose proof (T 20%nat _ ltac:(cbn; tauto) eq_refl); pose proof (T 21%nat _ ltac:(cbn; tauto) eq_refl); lia.
Qed.
Lemma narrow_ok : forall k v, k <> Kmove -> is_record k v -> fits k v -> Forall2 okv (lay32 k) (narrow k v) /\ widen k (narrow k v) = v.
Proof.
  intros k v M R FT; apply record_lay in R; destruct k; try congruence; cbn [lay64 lay32 map app] in R; inv2; unfold fits in FT; cbn [narrow widen lay32 map app].
  all: try (split; [|reflexivity]).
  all: try (repeat (constructor; [okvs; pows; lia|]); constructor; fail).
  - okvs; pose proof (info_rt y0 ltac:(lia) ltac:(lia) ltac:(lia)) as [E1 E2]; rewrite E1; split; [|reflexivity]; repeat (constructor; [okvs; pows; lia|]); constructor.
  - okvs; pose proof (info_rt y0 ltac:(lia) ltac:(lia) ltac:(lia)) as [E1 E2]; rewrite E1; split; [|reflexivity]; repeat (constructor; [okvs; pows; lia|]); constructor.
  - pose proof (FT 19%nat _ ltac:(cbn; tauto) eq_refl); pose proof (FT 20%nat _ ltac:(cbn; tauto) eq_refl); pose proof (FT 21%nat _ ltac:(cbn; tauto) eq_refl).
    repeat (constructor; [okvs; pows; lia|]); constructor.
Qed.
Lemma widen_ok : forall k v, k <> Kmove -> Forall2 okv (lay32 k) v -> is_record k (widen k v) /\ fits k (widen k v) /\ narrow k (widen k v) = v.
Proof.
  intros k v M R; rewrite record_lay; destruct k; try congruence; cbn [lay64 lay32 map app] in R; inv2; cbn [narrow widen lay64 lay32 map app]; unfold fits.
  all: try (split; [|split; [|reflexivity]]).
  all: try (repeat (constructor; [okvs; pows; lia|]); constructor; fail).
  all: try (okvs; pows; lia).
  1, 2: okvs; pose proof (info_tr y0 ltac:(pows; lia)) as (E1 & E2 & E3 & E4); rewrite E1; split; [|split; [|reflexivity]]; [repeat (constructor; [okvs; pows; lia|]); constructor | pows; lia].
  intros i x II EE; destruct II as [<-|[<-|[<-|[]]]]; cbn [nth_error] in EE; injection EE as <-; okvs; pows; lia.
Qed.

Lemma put_get : forall le c64 k buf base v b, k <> Kmove -> is_record k v -> (c64 = false -> fits k v) -> put_at le c64 k buf base v = Ok b ->
  get_at le c64 k b base = Ok v /\ only_changed buf b base (base + size c64 k).
Proof.
  intros le c64 k buf base v b M R FT P; unfold put_at in P.
  destruct ((0 <=? base) && (base + size c64 k <=? zlen buf)) eqn:E; [|discriminate]; injection P as <-.
  assert (W := wf_lay c64 k).
  set (vs := if c64 then v else narrow k v).
  assert (F : Forall2 okv (lay c64 k) vs /\ (if c64 then vs else widen k vs) = v).
  { unfold vs, lay; destruct c64; [split; [apply record_lay, R | reflexivity] | apply narrow_ok; auto]. }
  assert (ZL := zlen_wr_rec le (lay c64 k) (size c64 k) buf base vs W ltac:(lia) ltac:(lia)).
  split.
  - unfold get_at; rewrite ZL, E; rewrite (rd_wr_rec le _ (size c64 k)) by (apply W || apply F || lia); f_equal; apply F.
  - split; [exact ZL|]; intros i II; apply (znth_wr_rec le _ (size c64 k)); (exact W || lia).
Qed.
Lemma get_put : forall le c64 k buf base v, k <> Kmove -> bytes_ok buf -> get_at le c64 k buf base = Ok v ->
  put_at le c64 k buf base v = Ok buf /\ is_record k v /\ (c64 = false -> fits k v).
Proof.
  intros le c64 k buf base v M B P; unfold get_at in P; unfold put_at.
  destruct ((0 <=? base) && (base + size c64 k <=? zlen buf)) eqn:E; [|discriminate]; injection P as <-.
  assert (W := wf_lay c64 k).
  assert (F := rd_ok le (lay c64 k) (size c64 k) buf base W B ltac:(lia) ltac:(lia)).
  assert (ID := wr_rec_id le (lay c64 k) (size c64 k) buf base W B ltac:(lia) ltac:(lia)).
  destruct c64.
  - split; [rewrite ID; reflexivity|]; split; [apply record_lay, F | discriminate].
  - destruct (widen_ok k _ M F) as (F1 & F2 & F3); rewrite F3, ID; auto.
Qed.
Lemma size_pos : forall c64 k, 2 <= size c64 k <= 64.
Proof. intros [|] k; destruct k; cbn; lia. Qed.
Lemma at_inside : forall le c64 k buf base, 0 <= base -> base + size c64 k <= zlen buf -> (exists v, get_at le c64 k buf base = Ok v) /\ forall v, exists b, put_at le c64 k buf base v = Ok b.
Proof. intros le c64 k buf base A B; unfold get_at, put_at; replace ((0 <=? base) && (base + size c64 k <=? zlen buf)) with true by lia; eauto. Qed.
Lemma at_outside : forall le c64 k buf base, ~ (0 <= base /\ base + size c64 k <= zlen buf) -> get_at le c64 k buf base = UB /\ forall v, put_at le c64 k buf base v = UB.
Proof. intros le c64 k buf base A; unfold get_at, put_at; replace ((0 <=? base) && (base + size c64 k <=? zlen buf)) with false by lia; auto. Qed.

(* numbers *)
Definition in_data (c64 : bool) (k : kind) (buf : bytes) (ndx : Z) : Prop := 0 <= ndx /\ (ndx + 1) * size c64 k <= zlen buf.
Lemma ndx_ok : forall c64 k buf ndx, - 2 ^ 31 <= ndx < 2 ^ 31 -> zlen buf < 2 ^ 32 -> invalid_ndx ndx (size c64 k) (zlen buf) = false <-> in_data c64 k buf ndx.
Proof.
  intros c64 k buf ndx R L; unfold invalid_ndx, in_data, u32; pose proof (size_pos c64 k) as S0; set (s := size c64 k) in *; clearbody s.
  pose proof (zlen_nonneg _ buf); set (n := zlen buf) in *; clearbody n.
  rewrite Z.leb_gt.
  destruct (Z_lt_le_dec ndx 0).
  - assert (E : ndx mod two32 = ndx + 2 ^ 32) by (rewrite <- (Z_mod_plus_full ndx 1); rewrite Z.mod_small by lia; lia).
    rewrite E; assert (n / s <= 2 ^ 31) by (apply Z.div_le_upper_bound; nia); lia.
  - rewrite Z.mod_small by lia; split; intro X.
    + assert (ndx + 1 <= n / s) by lia; split; [lia|]; assert (s * (n / s) <= n) by (apply Z.mul_div_le; lia); nia.
    + assert (ndx + 1 <= n / s) by (apply Z.div_le_lower_bound; lia); lia.
Qed.
Lemma auxv_ok : forall c64 k buf ndx, 0 <= ndx < 2 ^ 31 -> invalid_auxv ndx (size c64 k) (zlen buf) = false <-> in_data c64 k buf ndx.
Proof.
  intros c64 k buf ndx R; unfold invalid_auxv, in_data, u64; pose proof (size_pos c64 k) as S0; set (s := size c64 k) in *; clearbody s.
  rewrite Z.mod_small by nia; lia.
Qed.
Lemma in_at : forall c64 k buf ndx, in_data c64 k buf ndx -> 0 <= ndx * size c64 k /\ ndx * size c64 k + size c64 k <= zlen buf.
Proof. intros c64 k buf ndx [A B]; pose proof (size_pos c64 k); nia. Qed.
