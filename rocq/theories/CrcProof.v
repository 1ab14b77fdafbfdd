From Verif Require Import Base CrcModel CrcSpec.

Lemma divide_lin : forall x y, divide (Z.lxor x y) = Z.lxor (divide x) (divide y).
Proof.
  intros x y. unfold divide. rewrite Z.shiftr_lxor. rewrite <- !Z.bit0_odd, Z.lxor_spec. apply Z.bits_inj'. intros n N. rewrite !Z.lxor_spec. destruct (Z.testbit x 0), (Z.testbit y 0); cbn [xorb]; rewrite ?Z.bits_0; destruct (Z.testbit (Z.shiftr x 1) n), (Z.testbit (Z.shiftr y 1) n), (Z.testbit POLY n); reflexivity.
Qed.
Fixpoint many (n : nat) (x : Z) : Z := match n with O => x | S n => many n (divide x) end.
Lemma many_lin : forall n x y, many n (Z.lxor x y) = Z.lxor (many n x) (many n y).
Proof. induction n as [|n IH]; intros x y; cbn [many]; [reflexivity|]. rewrite divide_lin. apply IH. Qed.
Lemma divide_shift : forall x, divide (Z.shiftl x 1) = x.
Proof. intros x. unfold divide. rewrite <- Z.bit0_odd. rewrite Z.shiftl_spec_low by lia. rewrite Z.lxor_0_r. rewrite Z.shiftr_shiftl_l by lia. apply Z.shiftl_0_r. Qed.
Lemma many_shift : forall n x, many n (Z.shiftl x (Z.of_nat n)) = x.
Proof. induction n as [|n IH]; intros x; cbn [many]; [apply Z.shiftl_0_r|]. replace (Z.of_nat (S n)) with (Z.of_nat n + 1) by lia. rewrite <- Z.shiftl_shiftl by lia. rewrite divide_shift. apply IH. Qed.
Lemma enter_many : forall n b c, 0 <= b < 2 ^ Z.of_nat n -> enter n b c = many n (Z.lxor c b).
Proof.
  induction n as [|n IH]; intros b c B; cbn [enter many].
  - replace b with 0 by (change (2 ^ Z.of_nat 0) with 1 in B; lia). rewrite Z.lxor_0_r. reflexivity.
  - rewrite Nat2Z.inj_succ, Z.pow_succ_r in B by lia. rewrite IH by (rewrite Z.shiftr_div_pow2 by lia; change (2 ^ 1) with 2; split; [apply Z.div_pos; lia|apply Z.div_lt_upper_bound; lia]).
    apply (f_equal (many n)). replace (Z.lxor c b) with (Z.lxor (Z.lxor c (Z.b2z (Z.odd b))) (Z.shiftl (Z.shiftr b 1) 1)).
    + rewrite (divide_lin (Z.lxor c (Z.b2z (Z.odd b)))), divide_shift. reflexivity.
    + rewrite Z.lxor_assoc. f_equal. apply Z.bits_inj'. intros k K. rewrite Z.lxor_spec. destruct (Z.eq_dec k 0) as [->|KN].
      * rewrite Z.shiftl_spec_low by lia. rewrite <- Z.bit0_odd. rewrite xorb_false_r. destruct (Z.testbit b 0); reflexivity.
      * rewrite Z.shiftl_spec by lia. rewrite Z.shiftr_spec by lia. replace (k - 1 + 1) with k by lia. assert (X : Z.testbit (Z.b2z (Z.odd b)) k = false). { destruct (Z.odd b); cbn [Z.b2z]; [|apply Z.bits_0]. change 1 with (2 ^ 0). apply Z.pow2_bits_false. lia. } rewrite X. apply xorb_false_l.
Qed.
Lemma table_ok : forall i, 0 <= i < 256 -> nth (Z.to_nat i) crc_table 0 = many 8 i.
Proof.
  assert (H : forallb (fun i => nth i crc_table 0 =? many 8 (Z.of_nat i)) (seq 0 256) = true) by (vm_compute; reflexivity).
  intros i I. rewrite forallb_forall in H. specialize (H (Z.to_nat i) ltac:(apply in_seq; lia)). rewrite Z2Nat.id in H by lia. apply Z.eqb_eq. exact H.
Qed.
Lemma step_ok : forall c b, 0 <= b < 256 -> crc_step c b = enter 8 b c.
Proof.
  intros c b B. rewrite enter_many by (change (2 ^ Z.of_nat 8) with 256; lia). unfold crc_step. set (x := Z.lxor c b). assert (L : 0 <= Z.land x 255 < 256) by (rewrite land_255; apply Z.mod_pos_bound; lia). rewrite (table_ok _ L).
  assert (SX : Z.shiftr c 8 = Z.shiftr x 8). { unfold x. rewrite Z.shiftr_lxor. replace (Z.shiftr b 8) with 0; [symmetry; apply Z.lxor_0_r|]. rewrite Z.shiftr_div_pow2 by lia. symmetry. apply Z.div_small. change (2 ^ 8) with 256. lia. }
  rewrite SX. transitivity (Z.lxor (many 8 (Z.land x 255)) (many 8 (Z.shiftl (Z.shiftr x 8) (Z.of_nat 8)))); [rewrite many_shift; reflexivity|]. rewrite <- many_lin. f_equal.
  apply Z.bits_inj'. intros k K. rewrite Z.lxor_spec, Z.land_spec. change (Z.of_nat 8) with 8. rewrite Z.shiftl_spec by lia. change 255 with (Z.ones 8). destruct (Z.lt_ge_cases k 8) as [H|H].
  - rewrite Z.ones_spec_low by lia. rewrite (Z.testbit_neg_r _ (k - 8)) by lia. rewrite andb_true_r, xorb_false_r. reflexivity.
  - rewrite Z.ones_spec_high by lia. rewrite andb_false_r, xorb_false_l, Z.shiftr_spec by lia. replace (k - 8 + 8) with k by lia. reflexivity.
Qed.
Lemma fold_same : forall (f g : Z -> Z -> Z) m, Forall (fun b => forall c, f c b = g c b) m -> forall c, fold_left f m c = fold_left g m c.
Proof. intros f g. induction m as [|b m IH]; intros F c; [reflexivity|]. apply Forall_cons_iff in F. destruct F as (B & F). cbn [fold_left]. rewrite B. apply IH. exact F. Qed.
Lemma fold_step : forall m c, bytes_ok m -> fold_left crc_step m c = fold_left (fun c b => enter 8 b c) m c.
Proof.
  intros m c F. apply fold_same. eapply Forall_impl; [|exact F]. intros b B c'. apply step_ok. unfold is_u8 in B. lia.
Qed.
Lemma not32_inv : forall x, not32 (not32 x) = x.
Proof. intros x. unfold not32. rewrite Z.lxor_assoc, Z.lxor_nilpotent. apply Z.lxor_0_r. Qed.
Lemma crc_split : forall c a b, crc32 (crc32 c a) b = crc32 c (a ++ b).
Proof. intros c a b. unfold crc32. rewrite not32_inv, fold_left_app. reflexivity. Qed.

(* 32 bits *)
Definition w32 (x : Z) : Prop := 0 <= x < 4294967296.
Lemma w32_bits : forall x, w32 x <-> (0 <= x /\ forall k, 32 <= k -> Z.testbit x k = false).
Proof.
  intros x. unfold w32. change 4294967296 with (2 ^ 32). split.
  - intros (A & B). split; [exact A|]. intros k K. destruct (Z.eq_dec x 0) as [->|N]; [apply Z.bits_0|]. apply Z.bits_above_log2; [exact A|]. assert (Z.log2 x < 32) by (apply Z.log2_lt_pow2; lia). lia.
  - intros (A & B). split; [exact A|]. destruct (Z.eq_dec x 0) as [->|N]; [reflexivity|]. apply Z.log2_lt_pow2; [lia|]. destruct (Z.lt_ge_cases (Z.log2 x) 32) as [L|L]; [exact L|]. exfalso. specialize (B (Z.log2 x) L). rewrite Z.bit_log2 in B by lia. discriminate.
Qed.
Lemma w32_lxor : forall x y, w32 x -> w32 y -> w32 (Z.lxor x y).
Proof. intros x y X Y. apply w32_bits in X. apply w32_bits in Y. apply w32_bits. split; [apply Z.lxor_nonneg; tauto|]. intros k K. rewrite Z.lxor_spec, (proj2 X k K), (proj2 Y k K). reflexivity. Qed.
Lemma w32_divide : forall x, w32 x -> w32 (divide x).
Proof.
  intros x X. unfold divide. apply w32_lxor; [|destruct (Z.odd x); unfold w32, POLY; lia]. unfold w32 in *. rewrite Z.shiftr_div_pow2 by lia. change (2 ^ 1) with 2. split; [apply Z.div_pos; lia|apply Z.div_lt_upper_bound; lia].
Qed.
Lemma w32_many : forall n x, w32 x -> w32 (many n x).
Proof. induction n as [|n IH]; intros x X; [exact X|]. cbn [many]. apply IH, w32_divide, X. Qed.
Lemma lxor_eq : forall x y, Z.lxor x y = 0 -> x = y.
Proof. intros x y H. apply Z.lxor_eq. exact H. Qed.
Lemma divide_0 : forall z, w32 z -> divide z = 0 -> z = 0.
Proof.
  intros z W H. unfold divide in H. apply lxor_eq in H. unfold w32 in W. rewrite Z.shiftr_div_pow2 in H by lia. change (2 ^ 1) with 2 in H. pose proof (Z.div_mod z 2 ltac:(lia)) as D. pose proof (Z.mod_pos_bound z 2 ltac:(lia)). rewrite Zodd_mod in H. unfold POLY in H. destruct (Zeq_bool (z mod 2) 1) eqn:E.
  - lia.
  - apply Zeq_bool_neq in E. lia.
Qed.
Lemma many_0 : forall n z, w32 z -> many n z = 0 -> z = 0.
Proof. induction n as [|n IH]; intros z W H; [exact H|]. cbn [many] in H. apply divide_0; [exact W|]. apply IH; [apply w32_divide; exact W|exact H]. Qed.
Lemma many_inj : forall n x y, w32 x -> w32 y -> many n x = many n y -> x = y.
Proof. intros n x y X Y H. apply lxor_eq. apply (many_0 n); [apply w32_lxor; assumption|]. rewrite many_lin, H. apply Z.lxor_nilpotent. Qed.
Lemma many_add : forall n m x, many (n + m) x = many m (many n x).
Proof. induction n as [|n IH]; intros m x; [reflexivity|]. cbn [Nat.add many]. apply IH. Qed.

(* bytes that enter one after the other: all at once, as a little-endian number *)
Lemma byte_w32 : forall b, 0 <= b < 256 -> w32 b.
Proof. intros b B. unfold w32. lia. Qed.
Lemma le_w32 : forall m, bytes_ok m -> (length m <= 4)%nat -> w32 (le_value m).
Proof.
  intros m F L. assert (H : forall m, bytes_ok m -> 0 <= le_value m < 256 ^ Z.of_nat (length m)).
  { clear. induction m as [|b m IH]; intros F; cbn [le_value length]; [lia|]. apply Forall_cons_iff in F. destruct F as (B & F). unfold is_u8 in B. specialize (IH F). rewrite Nat2Z.inj_succ, Z.pow_succ_r by lia. lia. }
  specialize (H m F). unfold w32. change 4294967296 with (256 ^ 4). assert (256 ^ Z.of_nat (length m) <= 256 ^ 4) by (apply Z.pow_le_mono_r; lia). lia.
Qed.
Lemma le_inj : forall m m', bytes_ok m -> bytes_ok m' -> length m = length m' -> le_value m = le_value m' -> m = m'.
Proof.
  induction m as [|b m IH]; intros [|b' m'] F F' L E; try discriminate; [reflexivity|]. cbn [le_value length] in *. apply Forall_cons_iff in F. destruct F as (B & F). apply Forall_cons_iff in F'. destruct F' as (B' & F'). unfold is_u8 in *. injection L as L. assert (b = b') by lia. subst. f_equal. apply IH; auto. lia.
Qed.
Section Gen.
(* any way to enter a byte that is the division of the sum by x^8 *)
Variable E : Z -> Z -> Z.
Hypothesis HE : forall c b, 0 <= b < 256 -> E c b = many 8 (Z.lxor c b).
Lemma all_g : forall m c, bytes_ok m -> (length m <= 4)%nat -> fold_left E m c = many (8 * length m) (Z.lxor c (le_value m)).
Proof.
  induction m as [|b m IH]; intros c F L.
  - cbn. rewrite Z.lxor_0_r. reflexivity.
  - apply Forall_cons_iff in F. destruct F as (B & F). cbn [fold_left length] in *. rewrite (IH _ F) by lia. unfold is_u8 in B. rewrite HE by lia.
    replace (8 * S (length m))%nat with (8 + 8 * length m)%nat by lia. rewrite many_add. f_equal. cbn [le_value].
    replace (le_value m) with (many 8 (Z.shiftl (le_value m) (Z.of_nat 8))) by apply many_shift. rewrite <- many_lin. f_equal. rewrite Z.lxor_assoc. f_equal. change (Z.of_nat 8) with 8. rewrite many_shift with (n := 8%nat) || idtac.
    change 256 with (2 ^ 8). rewrite Z.shiftl_mul_pow2 by lia. rewrite (Z.mul_comm (2 ^ 8)). symmetry. rewrite Z.add_nocarry_lxor; [reflexivity|]. apply Z.bits_inj'. intros k K. rewrite Z.land_spec, Z.bits_0. destruct (Z.lt_ge_cases k 8) as [H|H].
    + rewrite Z.mul_pow2_bits_low by lia. apply andb_false_r.
    + assert (X : Z.testbit b k = false). { destruct (Z.eq_dec b 0) as [->|N]; [apply Z.bits_0|]. apply Z.bits_above_log2; [lia|]. assert (Z.log2 b < 8) by (apply Z.log2_lt_pow2; [lia|change (2 ^ 8) with 256; lia]). lia. } rewrite X. reflexivity.
Qed.
Lemma inj_g : forall m c c', bytes_ok m -> w32 c -> w32 c' -> fold_left E m c = fold_left E m c' -> c = c'.
Proof.
  induction m as [|b m IH]; intros c c' F W W' H; [exact H|]. apply Forall_cons_iff in F. destruct F as (B & F). unfold is_u8 in B. cbn [fold_left] in H. rewrite !HE in H by lia.
  assert (WB : w32 b) by (apply byte_w32; lia). apply IH in H; [|exact F|apply w32_many, w32_lxor; assumption|apply w32_many, w32_lxor; assumption]. apply many_inj in H; [|apply w32_lxor; assumption|apply w32_lxor; assumption].
  assert (X : Z.lxor (Z.lxor c b) b = Z.lxor (Z.lxor c' b) b) by (rewrite H; reflexivity). rewrite !Z.lxor_assoc, Z.lxor_nilpotent, !Z.lxor_0_r in X. exact X.
Qed.
Lemma w32_g : forall m c, bytes_ok m -> w32 c -> w32 (fold_left E m c).
Proof.
  induction m as [|b m IH]; intros c F W; [exact W|]. apply Forall_cons_iff in F. destruct F as (B & F). unfold is_u8 in B. cbn [fold_left]. rewrite HE by lia. apply IH; [exact F|]. apply w32_many, w32_lxor; [exact W|apply byte_w32; lia].
Qed.
End Gen.
Lemma enter_8 : forall c b, 0 <= b < 256 -> (fun c b => enter 8 b c) c b = many 8 (Z.lxor c b).
Proof. intros c b B. apply enter_many. change (2 ^ Z.of_nat 8) with 256. lia. Qed.
Definition enter_all := all_g _ enter_8.
Definition fold_inj := inj_g _ enter_8.
Definition fold_w32 := w32_g _ enter_8.
