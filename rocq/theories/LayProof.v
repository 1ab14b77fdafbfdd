From Verif Require Import Base ElfErr LayModel LaySpec SegProof.
From Coq Require Import ZifyBool.

Lemma powerof2_pow2 x : 0 < x -> powerof2 x = true -> pow2 x.
Proof.
  intros X H. unfold powerof2 in H. apply Z.eqb_eq in H. exists (Z.log2 x). split; [apply Z.log2_nonneg|].
  pose proof (Z.log2_spec x X) as [L U]. destruct (Z.eq_dec x (2 ^ Z.log2 x)) as [E|N]; [exact E|exfalso].
  assert (B1 : Z.testbit x (Z.log2 x) = true) by (apply Z.bit_log2; lia).
  assert (E2 : Z.log2 (x - 1) = Z.log2 x) by (apply Z.log2_unique; [apply Z.log2_nonneg|lia]).
  assert (P : 0 < 2 ^ Z.log2 x) by (apply Z.pow_pos_nonneg; [lia|apply Z.log2_nonneg]).
  assert (B2 : Z.testbit (x - 1) (Z.log2 x) = true) by (rewrite <- E2; apply Z.bit_log2; lia).
  assert (B : Z.testbit (Z.land x (x - 1)) (Z.log2 x) = true) by (rewrite Z.land_spec, B1, B2; reflexivity).
  rewrite H, Z.bits_0 in B. discriminate B.
Qed.
Lemma pow2_powerof2 x : pow2 x -> powerof2 x = true.
Proof.
  intros (k & K & ->). unfold powerof2. apply Z.eqb_eq.
  replace (2 ^ k - 1) with (Z.ones k) by (rewrite Z.ones_equiv; lia). rewrite Z.land_ones by assumption. apply Z.mod_same. pose proof (Z.pow_pos_nonneg 2 k); lia.
Qed.
Lemma pow2_pos x : pow2 x -> 0 < x.
Proof. intros (k & K & ->). apply Z.pow_pos_nonneg; lia. Qed.
Lemma pow2_max a b : pow2 a -> pow2 b -> pow2 (Z.max a b).
Proof. intros A B. destruct (Z.max_spec a b) as [[_ ->]|[_ ->]]; assumption. Qed.
Lemma pow2_divides a b : pow2 a -> pow2 b -> a <= b -> b mod a = 0.
Proof.
  intros (j & J & ->) (k & K & ->) L. assert (j <= k) by (apply (Z.pow_le_mono_r_iff 2); lia).
  replace k with (j + (k - j)) by lia. rewrite Z.pow_add_r by lia. rewrite Z.mul_comm. apply Z.mod_mul. pose proof (Z.pow_pos_nonneg 2 j); lia.
Qed.
Lemma round_ok t a : 0 < a -> let r := t - t mod a in r mod a = 0 /\ t - a < r <= t.
Proof.
  intros A. cbv zeta. pose proof (Z.mod_pos_bound t a A). split; [|lia].
  rewrite Zminus_mod, Z.mod_mod, Z.sub_diag by lia. apply Z.mod_0_l. lia.
Qed.
Lemma mask64 off a : pow2 a -> a < two63 -> 0 <= off -> off + a <= two63 ->
  let r := Z.land (u64 (off + a - 1)) (u64 (Z.lnot (a - 1))) in r mod a = 0 /\ off <= r < off + a.
Proof.
  intros P L O B. cbv zeta. pose proof (pow2_pos a P). assert (E : u64 (off + a - 1) = off + a - 1) by (unfold u64; apply Z.mod_small; lia). rewrite E.
  destruct P as (k & K & ->). assert (KB : k < 63) by (apply (Z.pow_lt_mono_r_iff 2); [lia|lia|exact L]).
  replace (Z.lnot (2 ^ k - 1)) with (- 2 ^ k) by (unfold Z.lnot; lia). rewrite land_neg_pow2 by lia.
  pose proof (round_ok (off + 2 ^ k - 1) (2 ^ k) ltac:(lia)) as R. cbv zeta in R. split; [apply R|lia].
Qed.
Lemma land_neg32 t k : 0 <= t < two32 -> 0 <= k < 32 -> Z.land t (u32 (- 2 ^ k)) = t - t mod 2 ^ k.
Proof.
  intros T K. rewrite <- land_neg_pow2 by lia. apply Z.bits_inj'. intros n N. rewrite !Z.land_spec. unfold u32, u64. change two64 with (2 ^ 64). change two32 with (2 ^ 32).
  destruct (Z_lt_dec n 32).
  - rewrite !Z.mod_pow2_bits_low by lia. reflexivity.
  - assert (Z.testbit t n = false) as ->.
    { destruct (Z.eq_dec t 0) as [->|NZ]; [apply Z.bits_0|]. apply Z.bits_above_log2; [lia|]. apply Z.log2_lt_pow2; [lia|].
      apply Z.lt_le_trans with (2 ^ 32); [change (2 ^ 32) with two32; lia|]. apply Z.pow_le_mono_r; lia. }
    reflexivity.
Qed.
Lemma mask32 size a : pow2 a -> a < two32 -> 0 <= size -> size + a <= two32 ->
  let r := Z.land (size + (a - 1)) (u32 (Z.lnot (a - 1))) in r mod a = 0 /\ size <= r < size + a.
Proof.
  intros P L O B. cbv zeta. pose proof (pow2_pos a P). destruct P as (k & K & ->). assert (KB : k < 32) by (apply (Z.pow_lt_mono_r_iff 2); [lia|lia|exact L]).
  replace (Z.lnot (2 ^ k - 1)) with (- 2 ^ k) by (unfold Z.lnot; lia). rewrite land_neg32 by lia.
  pose proof (round_ok (size + (2 ^ k - 1)) (2 ^ k) ltac:(lia)) as R. cbv zeta in R. split; [apply R|lia].
Qed.
Lemma s64_id x : - two63 <= x < two63 -> s64 x = x.
Proof. intro H. unfold s64. rewrite Z.mod_small; lia. Qed.
Lemma u32_id x : 0 <= x < two32 -> u32 x = x.
Proof. intro H. apply Z.mod_small. exact H. Qed.

Definition amax (ds : list dblk) (a : Z) : Z := fold_right (fun d a => Z.max (d_align d) a) a ds.
Lemma amax_comm ds : forall a x, amax ds (Z.max a x) = Z.max x (amax ds a).
Proof. induction ds as [|d ds IH]; intros a x; cbn [amax fold_right]; [lia|]. fold (amax ds (Z.max a x)) (amax ds a). rewrite IH. lia. Qed.
Lemma amax_le ds a : a <= amax ds a.
Proof. induction ds as [|d ds IH]; cbn [amax fold_right]; [lia|]. fold (amax ds a). lia. Qed.
Lemma amax_in ds a : Forall (fun d => d_align d <= amax ds a) ds.
Proof.
  induction ds as [|d ds IH]; constructor; [cbn [amax fold_right]; fold (amax ds a); lia|].
  eapply Forall_impl; [|exact IH]. cbn beta. intros x X. cbn [amax fold_right]. fold (amax ds a). lia.
Qed.
Definition dsum (ds : list dblk) : Z := fold_right (fun d n => d_align d + d_size d + n) 0 ds.
Lemma dsum_nonneg ds : Forall dblk_ok ds -> 0 <= dsum ds.
Proof. induction 1 as [|d ds [D1 D2] F IH]; cbn [dsum fold_right]; [lia|]. fold (dsum ds). unfold is_u64 in D2. lia. Qed.

Lemma lay_data_ok size ds : forall off al ds' off' al', Forall dblk_ok ds -> 0 <= off -> off + dsum ds < two63 -> pow2 al -> al < two32 ->
  lay_data false size ds off al = Ok (ds', off', al') ->
  packed off (map (fun d => (d_align d, d_off d, d_size d)) ds') off' /\ off' <= off + dsum ds /\ al' = amax ds al /\ pow2 al' /\ al' < two32 /\
  Forall2 same_block ds ds' /\ Forall (fun d => pow2 (d_align d)) ds'.
Proof.
  induction ds as [|d ds IH]; intros off al ds' off' al' F O B P L E; cbn [lay_data] in E.
  - injection E as <- <- <-. cbn [map dsum amax fold_right]. split; [constructor|]. split; [lia|]. auto.
  - inversion F as [|? ? [D1 D2] F']; subst. cbn [dsum fold_right] in B. fold (dsum ds) in B. pose proof (dsum_nonneg ds F').
    destruct ((d_ver d =? 0) || (2 <=? d_ver d)); [discriminate E|]. destruct (powerof2 (d_align d)) eqn:EP; [|discriminate E]. cbn [negb] in E. cbv zeta in E.
    apply powerof2_pow2 in EP; [|lia]. unfold is_u64 in D2.
    destruct (mask64 off (d_align d) EP ltac:(lia) O ltac:(lia)) as [M1 M2].
    set (o := Z.land (u64 (off + d_align d - 1)) (u64 (Z.lnot (d_align d - 1)))) in *. clearbody o.
    rewrite (s64_id o) in E by lia. rewrite s64_id in E by lia.
    rewrite u32_id in E by (pose proof (pow2_pos al P); lia).
    destruct (lay_data false size ds (o + d_size d) (Z.max al (d_align d))) as [[[ds1 off1] al1]| | |] eqn:EL; cbn [obind] in E; try discriminate E.
    injection E as <- <- <-.
    destruct (IH (o + d_size d) (Z.max al (d_align d)) ds1 off1 al1 F' ltac:(lia) ltac:(lia) (pow2_max _ _ P EP) ltac:(lia) EL) as (R1 & R2 & R3 & R4 & R5 & R6 & R7).
    cbn [map dsum fold_right d_align d_off d_size]. fold (dsum ds). split; [constructor; [lia|assumption|lia|lia|assumption]|]. split; [lia|].
    split; [rewrite R3, amax_comm; reflexivity|]. split; [assumption|]. split; [assumption|]. split; [constructor; [repeat split|assumption]|constructor; assumption].
Qed.

Definition placed (s : scn) : Prop :=
  pow2 (s_align s) /\ Forall (fun d => pow2 (d_align d) /\ s_align s mod d_align d = 0) (blocks s) /\
  match s_data s with Some _ => packed 0 (data_regions s) (s_size s) | None => s_size s = s_raw s end.

Lemma s_size_nonneg s : placed s -> 0 <= s_raw s -> 0 <= s_size s.
Proof. intros (_ & _ & H) R. destruct (s_data s); [apply packed_le in H; assumption|lia]. Qed.

Lemma lay_scn_ok l s size s' size' : l_layout l = false -> scn_ok s -> 0 <= size -> size + need_align s + need_size s < two32 ->
  lay_scn l size s = Ok (s', size') ->
  packed size [scn_region s'] size' /\ size' <= size + need_align s + need_size s /\ s_align s' = need_align s /\ placed s' /\ same_scn s s'.
Proof.
  intros LL (A & R & F) SZ B E. unfold lay_scn in E. rewrite LL in E. cbv zeta in E.
  set (al := u32 (if s_align s =? 0 then 1 else s_align s)) in *.
  assert (EA : al = Z.max 1 (s_align s)) by (subst al; destruct (s_align s =? 0) eqn:E0; unfold u32; rewrite Z.mod_small; lia). clearbody al.
  destruct (powerof2 al) eqn:EP; [|discriminate E]. cbn [negb] in E. apply powerof2_pow2 in EP; [|lia].
  destruct (entsize l s) as [ent| | |]; cbn [obind] in E; try discriminate E.
  set (x := match s_data s with Some ds => _ | None => _ end) in E.
  assert (X : forall dd off al', x = Ok (dd, off, al') -> 0 <= off <= need_size s /\ al' = need_align s /\ pow2 al' /\ al' < two32 /\
     match s_data s, dd with
     | Some ds, Some ds' => packed 0 (map (fun d => (d_align d, d_off d, d_size d)) ds') off /\ Forall2 same_block ds ds' /\ Forall (fun d => pow2 (d_align d) /\ al' mod d_align d = 0) ds'
     | None, None => off = s_raw s
     | _, _ => False end).
  { intros dd off al' EX. subst x. unfold need_size, need_align, blocks in *. destruct (s_data s) as [ds|].
    - fold (dsum ds) in *. fold (amax ds (Z.max 1 (s_align s))) in *. rewrite <- EA in *. pose proof (amax_le ds al). pose proof (pow2_pos al EP).
      destruct (lay_data false (s_size s) ds 0 al) as [[[ds1 off1] al1]| | |] eqn:EL; cbn [obind] in EX; try discriminate EX. injection EX as <- <- <-.
      destruct (lay_data_ok (s_size s) ds 0 al ds1 off1 al1 F ltac:(lia) ltac:(lia) EP ltac:(lia) EL) as (R1 & R2 & R3 & R4 & R5 & R6 & R7).
      pose proof (packed_le _ _ _ R1). split; [lia|]. split; [exact R3|]. split; [exact R4|]. split; [exact R5|]. split; [exact R1|]. split; [exact R6|].
      rewrite R3 in *. pose proof (amax_in ds al) as I1. clear - R4 R6 R7 I1. revert R7 I1. generalize (amax ds al) R4. clear R4. intros M PM.
      induction R6 as [|d d' ds ds' SB R6 IH]; intros R7 I1; constructor.
      + inversion R7; subst. inversion I1; subst. split; [assumption|]. apply pow2_divides; [assumption|assumption|]. destruct SB as (-> & _). assumption.
      + inversion R7; subst. inversion I1; subst. apply IH; assumption.
    - cbn [fold_right] in *. rewrite <- EA in *. injection EX as <- <- <-. rewrite s64_id by lia. split; [lia|]. split; [reflexivity|]. split; [assumption|]. split; [lia|reflexivity]. }
  destruct x as [[[dd off] al']| | |]; cbn [obind] in E; try discriminate E.
  destruct (X dd off al' eq_refl) as (X1 & X2 & X3 & X4 & X5). clear X.
  unfold sadd in E. pose proof (pow2_pos al' X3).
  replace ((- two63 <=? size + (al' - 1)) && (size + (al' - 1) <? two63)) with true in E by lia. cbn [obind] in E.
  destruct (mask32 size al' X3 X4 SZ ltac:(lia)) as [M1 M2].
  set (o := Z.land (size + (al' - 1)) (u32 (Z.lnot (al' - 1)))) in *. clearbody o.
  rewrite !u32_id in E by lia.
  set (z := if s_type s =? SHT_NOBITS then Ok o else _) in E.
  assert (EZ : z = Ok (o + (if s_type s =? SHT_NOBITS then 0 else off))).
  { subst z. destruct (s_type s =? SHT_NOBITS); [f_equal; lia|]. replace ((- two63 <=? o + off) && (o + off <? two63)) with true by lia. reflexivity. }
  rewrite EZ in E. cbn [obind] in E. clear z EZ.
  assert (EE : s' = Sc (s_type s) (s_flags s) al' ent o off dd (s_raw s) (s_chsize s) /\ size' = o + (if s_type s =? SHT_NOBITS then 0 else off)).
  { cbn [s_ent s_size] in E. destruct (negb (ent =? 0) && negb (ent =? 1) && negb (l_perm l)); [|injection E as <- <-; split; reflexivity].
    destruct (Z.land (s_flags s) SHF_COMPRESSED =? 0); cbn [obind] in E.
    - destruct (negb (u32 off mod ent =? 0)); [discriminate E|]. injection E as <- <-; split; reflexivity.
    - destruct (s_chsize s) as [n|]; cbn [obind] in E; [|discriminate E]. destruct (negb (u32 n mod ent =? 0)); [discriminate E|]. injection E as <- <-; split; reflexivity. }
  destruct EE as [-> ->]. cbn [scn_region s_align s_off s_type s_size].
  split; [unfold scn_region; cbn [s_align s_off s_type s_size]; constructor; [lia|assumption|lia|destruct (s_type s =? SHT_NOBITS); lia|constructor]|].
  split; [destruct (s_type s =? SHT_NOBITS); lia|]. split; [assumption|].
  unfold placed, same_scn, blocks, data_regions. cbn [s_type s_flags s_align s_size s_data s_raw s_chsize].
  destruct (s_data s) as [ds|] eqn:ED; destruct dd as [ds'|]; try (exfalso; exact X5).
  - destruct X5 as (Y1 & Y2 & Y3). split; [split; [assumption|split; assumption]|]. repeat (split; [reflexivity|]). assumption.
  - split; [split; [assumption|split; [constructor|assumption]]|]. repeat (split; [reflexivity|]). exact Logic.I.
Qed.

Definition ssum (ss : list scn) : Z := fold_right (fun s n => need_align s + need_size s + n) 0 ss.
Lemma need_nonneg s : scn_ok s -> 0 < need_align s /\ 0 <= need_size s.
Proof.
  intros (A & R & F). unfold need_align, need_size, blocks in *. destruct (s_data s) as [ds|]; cbn [fold_right].
  - fold (amax ds (Z.max 1 (s_align s))). fold (dsum ds). pose proof (amax_le ds (Z.max 1 (s_align s))). pose proof (dsum_nonneg ds F). lia.
  - lia.
Qed.
Lemma ssum_nonneg ss : Forall scn_ok ss -> 0 <= ssum ss.
Proof. induction 1 as [|s ss K F IH]; cbn [ssum fold_right]; [lia|]. fold (ssum ss). pose proof (need_nonneg s K). lia. Qed.
Lemma packed_app p l m : packed p l m -> forall r e, packed m r e -> packed p (l ++ r) e.
Proof. induction 1; intros r' e' R; cbn [app]; [assumption|]. constructor; auto. Qed.

Lemma lay_scns_ok l ss : forall size ss' size', l_layout l = false -> Forall scn_ok ss -> 0 <= size -> size + ssum ss < two32 ->
  lay_scns l size ss = Ok (ss', size') ->
  packed size (map scn_region ss') size' /\ size' <= size + ssum ss /\ Forall2 (fun s s' => same_scn s s' /\ s_align s' = need_align s) ss ss' /\ Forall placed ss'.
Proof.
  induction ss as [|s ss IH]; intros size ss' size' LL F SZ B E; cbn [lay_scns] in E.
  - injection E as <- <-. cbn [ssum fold_right map]. split; [constructor|]. split; [lia|]. split; constructor.
  - inversion F as [|? ? K F']; subst. cbn [ssum fold_right] in *. fold (ssum ss) in *. pose proof (ssum_nonneg ss F'). pose proof (need_nonneg s K).
    destruct (lay_scn l size s) as [[s1 size1]| | |] eqn:E1; cbn [obind] in E; try discriminate E.
    destruct (lay_scns l size1 ss) as [[ss1 size2]| | |] eqn:E2; cbn [obind] in E; try discriminate E. injection E as <- <-.
    destruct (lay_scn_ok l s size s1 size1 LL K SZ ltac:(lia) E1) as (R1 & R2 & R3 & R4 & R5).
    pose proof (packed_le _ _ _ R1).
    destruct (IH size1 ss1 size2 LL F' ltac:(lia) ltac:(lia) E2) as (T1 & T2 & T3 & T4).
    split; [change (map scn_region (s1 :: ss1)) with ([scn_region s1] ++ map scn_region ss1); eapply packed_app; eassumption|]. split; [lia|]. split; constructor; auto.
Qed.

(* it succeeds *)
Lemma lay_data_succeeds size ds : forall off al, Forall (fun d => d_ver d = 1 /\ powerof2 (d_align d) = true) ds -> exists r, lay_data false size ds off al = Ok r.
Proof.
  induction ds as [|d ds IH]; intros off al F; cbn [lay_data]; [eexists; reflexivity|]. inversion F as [|? ? [V P] F']; subst. rewrite V, P. cbn [orb negb]. cbv zeta.
  replace ((1 =? 0) || (2 <=? 1)) with false by reflexivity.
  match goal with |- context [lay_data false size ds ?o ?a] => destruct (IH o a F') as [[[a1 b1] c1] ->] end. cbn [obind]. eexists. reflexivity.
Qed.
