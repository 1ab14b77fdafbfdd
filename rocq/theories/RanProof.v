From Verif Require Import Base Slice ArSpec RanModel RanSpec.

Lemma ud_ok : forall k v, 0 <= v < 10 ^ Z.of_nat (S k) -> ud k v <> [] /\ Forall digit (ud k v) /\ dec (ud k v) = v /\ (forall n, 0 <= n -> v < 10 ^ (n + 1) -> zlen (ud k v) <= n + 1).
Proof.
  induction k as [|k IH]; intros v V; cbn [ud].
  - replace (v <? 10) with true by (cbn in V; lia). split; [discriminate|]. split; [repeat constructor; unfold digit; cbn in V; lia|]. split; [unfold dec; cbn [fold_left]; lia|]. intros. unfold zlen. cbn. lia.
  - destruct (v <? 10) eqn:T.
    + split; [discriminate|]. split; [repeat constructor; unfold digit; lia|]. split; [unfold dec; cbn [fold_left]; lia|]. intros. unfold zlen. cbn. lia.
    + assert (P : 10 ^ Z.of_nat (S (S k)) = 10 * 10 ^ Z.of_nat (S k)) by (rewrite (Nat2Z.inj_succ (S k)), Z.pow_succ_r by lia; reflexivity).
      destruct (IH (v / 10)) as (A & B & C & D); [split; [apply Z.div_pos; lia | apply Z.div_lt_upper_bound; lia]|].
      split; [destruct (ud k (v / 10)); discriminate|]. split; [apply Forall_app; split; [exact B | repeat constructor; unfold digit; pose proof (Z.mod_pos_bound v 10); lia]|].
      split; [unfold dec in *; rewrite fold_left_app, C; cbn [fold_left]; pose proof (Z.div_mod v 10); lia|].
      intros n N L. rewrite zlen_app. change (zlen [48 + v mod 10]) with 1.
      destruct (Z.eq_dec n 0) as [-> | N0]; [cbn in L; lia|].
      assert (v / 10 < 10 ^ (n - 1 + 1)). { replace (n - 1 + 1) with n by lia. apply Z.div_lt_upper_bound; [lia|]. rewrite <- Z.pow_succ_r by lia. exact L. }
      specialize (D (n - 1) ltac:(lia) H). lia.
Qed.
Lemma pr_field w v : (0 < w <= 20)%nat -> 0 <= v < 10 ^ Z.of_nat w -> field (Z.of_nat w) v (pr w v).
Proof.
  intros W V. assert (V' : 0 <= v < 10 ^ Z.of_nat 21). { split; [lia|]. eapply Z.lt_le_trans; [apply V|]. apply Z.pow_le_mono_r; lia. }
  destruct (ud_ok 20 v V') as (A & B & C & D). specialize (D (Z.of_nat w - 1) ltac:(lia) ltac:(replace (Z.of_nat w - 1 + 1) with (Z.of_nat w) by lia; lia)).
  unfold field, pr. exists (ud 20 v), (w - length (ud 20 v))%nat. repeat (split; [first [assumption | reflexivity]|]).
  unfold zlen in *. rewrite app_length, repeat_length. lia.
Qed.
Lemma zero_field n : field (Z.of_nat (S n)) 0 (48 :: repeat 32 n).
Proof. exists [48], n. split; [discriminate|]. split; [repeat constructor; unfold digit; lia|]. split; [reflexivity|]. split; [reflexivity|]. unfold zlen. cbn [length]. rewrite repeat_length. reflexivity. Qed.

Lemma placed_shift d : forall l p, placed (p + d) l = map (fun s => (fst s, snd s + d)) (placed p l).
Proof.
  induction l as [|m r IH]; intros p; cbn [placed]; [reflexivity|]. rewrite map_app, map_map. cbn [fst snd]. f_equal.
  replace (p + d + zlen (a_bytes m)) with (p + zlen (a_bytes m) + d) by lia. apply IH.
Qed.
Lemma body_cons m l : body (m :: l) = a_bytes m ++ body l. Proof. reflexivity. Qed.
Lemma body_app a b : body (a ++ b) = body a ++ body b. Proof. unfold body. rewrite map_app, concat_app. reflexivity. Qed.
Lemma placed_app : forall a b p, placed p (a ++ b) = placed p a ++ placed (p + zlen (body a)) b.
Proof.
  induction a as [|m a IH]; intros b p; cbn [app placed]; [unfold body; cbn; rewrite Z.add_0_r; reflexivity|]. rewrite IH, body_cons, zlen_app, <- app_assoc. do 3 f_equal. lia.
Qed.
Lemma placed_bound : forall l p s o, In (s, o) (placed p l) -> p <= o <= p + zlen (body l).
Proof.
  induction l as [|m l IH]; intros p s o H; [destruct H|]. cbn [placed] in H. rewrite body_cons, zlen_app. pose proof (zlen_nonneg _ (a_bytes m)). pose proof (zlen_nonneg _ (body l)).
  apply in_app_iff in H. destruct H as [H | H]; [apply in_map_iff in H; destruct H as (x & E & _); injection E as _ <-; lia|]. apply IH in H. lia.
Qed.
Lemma placed_at : forall l p s o, In (s, o) (placed p l) -> exists a m b, l = a ++ m :: b /\ In s (a_syms m) /\ o = p + zlen (body a).
Proof.
  induction l as [|m l IH]; intros p s o H; [destruct H|]. cbn [placed] in H. apply in_app_iff in H. destruct H as [H | H].
  - apply in_map_iff in H. destruct H as (x & E & X). injection E as <- <-. exists [], m, l. split; [reflexivity|]. split; [exact X | unfold body; cbn; lia].
  - apply IH in H. destruct H as (a & m' & b & -> & S & ->). exists (m :: a), m', b. split; [reflexivity|]. split; [exact S|]. rewrite body_cons, zlen_app. lia.
Qed.
Lemma walks_app : forall a b p ws, walks p (a ++ b) ws -> exists wa wb, ws = wa ++ wb /\ walks p a wa /\ walks (p + zlen (body a)) b wb.
Proof.
  induction a as [|m a IH]; intros b p ws H; cbn [app] in H.
  - exists [], ws. split; [reflexivity|]. split; [constructor|]. unfold body. cbn. rewrite Z.add_0_r. exact H.
  - inversion H; subst. destruct (IH b _ _ H9) as (wa & wb & -> & A & B). exists (w :: wa), wb. split; [reflexivity|]. split; [constructor; auto|]. rewrite body_cons, zlen_app, Z.add_assoc. exact B.
Qed.
Lemma collect_plain : forall a p wa, walks p a wa -> Forall (fun m => a_index m = false) a -> forall ws cur ix offs names, 0 <= cur -> cur + zlen (body a) < 2 ^ 32 ->
  collect (wa ++ ws) cur ix offs names = collect ws (cur + zlen (body a)) ix (offs ++ map snd (placed cur a)) (names ++ concat (map (fun s : bytes * Z => fst s ++ [0]) (placed cur a))).
Proof.
  induction a as [|m a IH]; intros p wa W N ws cur ix offs names C B; inversion W; subst.
  - cbn [app placed map concat]. unfold body. cbn. rewrite Z.add_0_r, !app_nil_r. reflexivity.
  - apply Forall_cons_iff in N. destruct N as (N1 & N2). cbn [app collect]. rewrite body_cons, zlen_app in *. pose proof (zlen_nonneg _ (a_bytes m)). pose proof (zlen_nonneg _ (body a)).
    match goal with H : w_index w = a_index m |- _ => rewrite H, N1 end. replace (2 ^ 32 - 1 <? cur) with false by lia.
    match goal with H : w_syms w = a_syms m |- _ => rewrite H end.
    replace (cur + (even (w_size w) + 60)) with (cur + zlen (a_bytes m)) by (unfold even; lia).
    erewrite IH; [|eassumption | assumption | lia | lia]. cbn [placed]. rewrite !map_app, !concat_app, !map_map, <- !app_assoc. cbn [fst snd].
    replace (u32 cur) with cur by (symmetry; apply Z.mod_small; lia). rewrite Z.add_assoc. reflexivity.
Qed.
Lemma collect_all l ws : walks 8 l ws -> (length (filter a_index l) <= 1)%nat -> 8 + zlen (body (others l)) < 2 ^ 32 ->
  exists ix, collect ws 8 None [] [] = Some (ix, map snd (placed 8 (others l)), concat (map (fun s : bytes * Z => fst s ++ [0]) (placed 8 (others l)))) /\
    match ix with
    | None => others l = l
    | Some (o, s) => exists a i b, l = a ++ i :: b /\ others l = a ++ b /\ o = 8 + zlen (body a) /\ zlen (a_bytes i) = 60 + even s /\ 0 <= s /\ a_index i = true
    end.
Proof.
  intros W L B.
  assert (K : forall l, filter a_index l = [] -> Forall (fun m => a_index m = false) l /\ others l = l).
  { clear. induction l as [|m l IH]; intros H; cbn in *; [split; [constructor | reflexivity]|]. destruct (a_index m) eqn:E; [discriminate|]. destruct (IH H) as (A & C). unfold others in C. cbn. rewrite C. auto. }
  assert (Q : filter a_index l = [] \/ exists a i b, l = a ++ i :: b /\ a_index i = true /\ filter a_index a = [] /\ filter a_index b = []).
  { clear - L. induction l as [|m l IH]; [left; reflexivity|]. cbn in *. destruct (a_index m) eqn:E.
    - right. exists [], m, l. cbn in L. split; [reflexivity|]. split; [exact E|]. split; [reflexivity|]. destruct (filter a_index l); [reflexivity | cbn in L; lia].
    - destruct (IH L) as [H | (a & i & b & -> & I & A & C)]; [left; exact H|]. right. exists (m :: a), i, b. cbn. rewrite E. auto. }
  destruct Q as [Q | (a & i & b & -> & I & A & C)].
  - destruct (K l Q) as (N & E). rewrite E in *. exists None. split; [|reflexivity].
    pose proof (collect_plain l 8 ws W N [] 8 None [] [] ltac:(lia) B) as R. rewrite app_nil_r in R. rewrite R. reflexivity.
  - destruct (K a A) as (Na & Ea). destruct (K b C) as (Nb & Eb).
    assert (E : others (a ++ i :: b) = a ++ b). { unfold others in *. rewrite filter_app. cbn [filter]. rewrite I. cbn [negb]. rewrite Ea, Eb. reflexivity. }
    rewrite E in *. rewrite body_app, zlen_app in B. pose proof (zlen_nonneg _ (body a)). pose proof (zlen_nonneg _ (body b)).
    destruct (walks_app a (i :: b) 8 ws W) as (wa & wb & -> & Wa & Wb). inversion Wb; subst.
    exists (Some (8 + zlen (body a), w_size w)). split.
    + rewrite (collect_plain a 8 wa Wa Na) by lia. cbn [collect]. match goal with H : w_index w = a_index i |- _ => rewrite H, I end.
      match goal with H : walks _ b ?ws |- _ => pose proof (collect_plain b _ ws H Nb [] (8 + zlen (body a)) (Some (w_off w, w_size w)) ([] ++ map snd (placed 8 a)) ([] ++ concat (map (fun s : bytes * Z => fst s ++ [0]) (placed 8 a))) ltac:(lia) ltac:(lia)) as R end.
      rewrite app_nil_r in R. rewrite R. cbn [collect app]. rewrite placed_app, !map_app, concat_app.
      match goal with H : w_off w = _ |- _ => rewrite H end. reflexivity.
    + exists a, i, b. auto 8.
Qed.
Lemma concat_len4 {A} (f : A -> bytes) (F : forall x, zlen (f x) = 4) : forall l, zlen (concat (map f l)) = 4 * zlen l.
Proof. induction l as [|x l IH]; [reflexivity|]. cbn [map concat]. rewrite zlen_app, zlen_cons, IH, F. lia. Qed.
Lemma zsub_mid (a b c : bytes) p n : zlen a = p -> zlen b = n -> zsub (a ++ b ++ c) p n = b.
Proof.
  intros <- <-. unfold zsub, zlen. rewrite !Nat2Z.id, skipn_app, skipn_all, Nat.sub_diag. cbn [app skipn]. rewrite firstn_app, firstn_all, Nat.sub_diag. cbn. apply app_nil_r.
Qed.
Lemma copied l ix : match ix with
    | None => others l = l
    | Some (o, s) => exists a i b, l = a ++ i :: b /\ others l = a ++ b /\ o = 8 + zlen (body a) /\ zlen (a_bytes i) = 60 + even s /\ 0 <= s /\ a_index i = true
    end ->
  let file := ARMAG ++ body l in
  let rest_off := match ix with Some (o, s) => o + 60 + even s | None => 8 end in
  (zlen file <? rest_off) = false /\
  (match ix with Some (o, _) => if 8 <? o then zsub file 8 (o - 8) else [] | None => [] end) ++ zsub file rest_off (zlen file - rest_off) = body (others l).
Proof.
  intros H file rest_off. assert (M8 : zlen ARMAG = 8) by reflexivity. unfold file, rest_off. clear file rest_off. destruct ix as [(o, s)|].
  - destruct H as (a & i & b & -> & E & -> & I & S & _). rewrite E, !body_app, body_cons, !zlen_app, M8. pose proof (zlen_nonneg _ (body a)). pose proof (zlen_nonneg _ (body b)). split; [lia|]. f_equal.
    + destruct (8 <? 8 + zlen (body a)) eqn:Q.
      * apply zsub_mid; [exact M8 | lia].
      * destruct (body a); [reflexivity|]. rewrite zlen_cons in Q. match goal with H : 0 <= zlen (?x :: ?y) |- _ => pose proof (zlen_nonneg _ y) end. lia.
    + replace (ARMAG ++ body a ++ a_bytes i ++ body b) with ((ARMAG ++ body a ++ a_bytes i) ++ body b ++ []) by (rewrite app_nil_r, <- !app_assoc; reflexivity).
      apply zsub_mid; rewrite ?zlen_app; lia.
  - rewrite H, zlen_app, M8. pose proof (zlen_nonneg _ (body l)). split; [lia|]. cbn [app].
    replace (ARMAG ++ body l) with (ARMAG ++ body l ++ []) by (rewrite app_nil_r; reflexivity). apply zsub_mid; [exact M8 | lia].
Qed.
Lemma ranlib_new l ws date : walks 8 l ws -> (length (filter a_index l) <= 1)%nat -> 0 <= date < 10 ^ 12 -> placed 8 (others l) <> [] ->
  69 + zlen (index 4 (placed 8 (others l))) + zlen (body (others l)) < 2 ^ 32 ->
  exists h mi pad, header mi h /\ m_name mi = padded [47] /\ m_data mi = index 4 (placed (68 + zlen (m_data mi)) (others l)) ++ pad /\ zlen (m_data mi) mod 2 = 0 /\ zlen pad <= 1 /\ zlen h = 60 /\
    ranlib (ARMAG ++ body l) ws date = Rnew (magic ++ h ++ m_data mi ++ body (others l)) /\ 68 + zlen (m_data mi) + zlen (body (others l)) < 2 ^ 32.
Proof.
  intros W L D P BD. set (syms := placed 8 (others l)) in *. set (offs := map snd syms). set (names := concat (map (fun s : bytes * Z => fst s ++ [0]) syms)).
  assert (N1 : 1 <= zlen names). { unfold names. destruct syms as [|x r]; [congruence|]. cbn [map concat]. rewrite !zlen_app. change (zlen [0]) with 1. pose proof (zlen_nonneg _ (fst x)). pose proof (zlen_nonneg _ (concat (map (fun s : bytes * Z => fst s ++ [0]) r))). lia. }
  set (pad := if zlen names mod 2 =? 0 then [] else [0] : bytes).
  assert (NE : names_end names = names ++ pad). { unfold names_end, pad. destruct (_ =? _); [rewrite app_nil_r|]; reflexivity. }
  assert (NP : zlen pad <= 1 /\ 0 <= zlen pad /\ (zlen names + zlen pad) mod 2 = 0).
  { unfold pad. destruct (zlen names mod 2 =? 0) eqn:Q; [rewrite zlen_nil | change (zlen [0]) with 1]; (split; [lia|]; split; [lia|]).
    - rewrite Z.add_0_r. lia.
    - pose proof (Z.mod_pos_bound (zlen names) 2). rewrite Z.add_mod by lia. replace (zlen names mod 2) with 1 by lia. reflexivity. }
  set (T := offs_len offs + zlen (names_end names)). assert (LT : T = 64 + 4 * zlen syms + zlen names + zlen pad) by (unfold T, offs_len, offs; rewrite NE, zlen_app; unfold zlen; rewrite map_length; lia).
  pose proof (zlen_nonneg _ syms) as Zs.
  set (data := index 4 (placed (8 + T) (others l)) ++ pad).
  assert (PS : placed (8 + T) (others l) = map (fun s => (fst s, snd s + T)) syms) by apply placed_shift.
  assert (NM : concat (map (fun s : bytes * Z => fst s ++ [0]) (map (fun s => (fst s, snd s + T)) syms)) = names) by (unfold names; rewrite map_map; reflexivity).
  assert (LM : zlen (map (fun s : bytes * Z => (fst s, snd s + T)) syms) = zlen syms) by (unfold zlen; rewrite map_length; reflexivity).
  assert (LD : zlen data = T - 60).
  { unfold data, index. rewrite PS, NM, !zlen_app, zlen_enc by lia. rewrite concat_len4 by (intros; apply zlen_enc; lia). rewrite LM. lia. }
  set (h := ar_hdr date (u32 (T - 60))).
  assert (L8 : zlen (index 4 syms) = 4 + 4 * zlen syms + zlen names).
  { unfold index. rewrite !zlen_app, zlen_enc by lia. rewrite concat_len4 by (intros; apply zlen_enc; lia). fold names. lia. }
  rewrite L8 in BD. pose proof (zlen_nonneg _ (body (others l))) as Zb.
  assert (BT : 8 + T + zlen (body (others l)) < 2 ^ 32) by lia.
  assert (US : u32 (T - 60) = T - 60) by (apply Z.mod_small; lia).
  exists h, (Member (padded [47]) date 0 0 (48 :: repeat 32 7) data), pad. cbn [m_name m_data m_date m_uid m_gid m_mode].
  split.
  { exists (pr 12 date), (48 :: repeat 32 5), (48 :: repeat 32 5), (pr 10 (T - 60)). cbn [m_name m_data m_date m_uid m_gid m_mode].
    split; [reflexivity|]. split; [reflexivity|]. split; [apply (pr_field 12); [lia | exact D]|]. split; [apply (zero_field 5)|]. split; [apply (zero_field 5)|].
    split; [rewrite LD; apply (pr_field 10); [lia | split; [lia|]; apply (Z.lt_trans _ (2 ^ 32)); [lia | reflexivity]]|].
    split; [exists [48], 7%nat; split; [discriminate|]; split; [repeat constructor; unfold digit; lia | reflexivity]|].
    unfold h. rewrite US. reflexivity. }
  split; [reflexivity|]. replace (68 + zlen data) with (8 + T) by lia. split; [reflexivity|].
  split; [rewrite LD, LT; destruct NP as (_ & _ & NP); replace (64 + 4 * zlen syms + zlen names + zlen pad - 60) with (zlen names + zlen pad + (2 + 2 * zlen syms) * 2) by lia; rewrite Z.mod_add by lia; exact NP|].
  split; [apply NP|]. split.
  { destruct (pr_field 12 date ltac:(lia) D) as (? & ? & _ & _ & _ & _ & Q1). destruct (pr_field 10 (T - 60) ltac:(lia)) as (? & ? & _ & _ & _ & _ & Q2).
    { split; [lia|]. apply (Z.lt_trans _ (2 ^ 32)); [lia | reflexivity]. }
    unfold h, ar_hdr. rewrite US, !zlen_app, Q1, Q2. reflexivity. }
  split; [|lia].
  destruct (collect_all l ws W L ltac:(lia)) as (ix & C & I). unfold ranlib. rewrite C. fold syms offs names. cbv zeta.
  assert (NZ : (zlen (names_end names) =? 0) = false) by (rewrite NE, zlen_app; lia). rewrite NZ. cbn [andb].
  destruct (copied l ix I) as (K1 & K2). cbv zeta in K1, K2. rewrite K1, K2. change ARMAG with magic. do 2 f_equal. rewrite <- app_assoc.
  unfold symsoff. fold T. fold h. rewrite NE, <- !app_assoc. f_equal. unfold data, index. rewrite PS, NM, LM, <- !app_assoc.
  assert (DS : disp offs names = T) by (unfold disp; replace (0 <? zlen (names_end names)) with true by (pose proof (zlen_nonneg _ (names_end names)); lia); reflexivity).
  rewrite DS. replace (T =? 0) with false by lia. f_equal.
  { unfold enc. cbn [Z.to_nat Pos.to_nat Pos.iter_op Nat.add]. f_equal. replace (offs_len offs - 60) with ((1 + zlen syms) * 4) by (unfold offs_len, offs, zlen; rewrite map_length; lia). rewrite Z.div_mul by lia.
    unfold u32. rewrite Z.mod_small by lia. lia. }
  f_equal. unfold offs. rewrite !map_map. f_equal. apply map_ext_in. intros [s o] Hs. cbn [fst snd]. unfold enc. cbn [Z.to_nat Pos.to_nat Pos.iter_op Nat.add]. f_equal.
  apply placed_bound in Hs. unfold u32. apply Z.mod_small. lia.
Qed.
