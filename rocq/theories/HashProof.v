(* Proofs about the hash functions, crc32 and crc32_file. *)
From Verif Require Import Base LebModel LebProof HashModel HashSpec.
From Coq Require Import Btauto.

(* ------------------------------------------------------------------ *)
(* bit lemmas *)
Lemma lxor_mod_pow2 : forall a b n, 0 <= n ->
  (Z.lxor a b) mod 2 ^ n = Z.lxor (a mod 2 ^ n) (b mod 2 ^ n).
Proof.
  intros a b n Hn. apply Z.bits_inj'; intros k Hk.
  rewrite Z.lxor_spec.
  destruct (Z_lt_le_dec k n).
  - rewrite !Z.mod_pow2_bits_low by lia. apply Z.lxor_spec.
  - rewrite !Z.mod_pow2_bits_high by lia. reflexivity.
Qed.

Lemma testbit_high : forall x n k, 0 <= x < 2 ^ n -> 0 <= n <= k -> Z.testbit x k = false.
Proof.
  intros x n k Hx Hk. rewrite <- (Z.mod_small x (2 ^ n)) by lia.
  apply Z.mod_pow2_bits_high; lia.
Qed.

Lemma lxor_bound : forall a b n, 0 <= n -> 0 <= a < 2 ^ n -> 0 <= b < 2 ^ n ->
  0 <= Z.lxor a b < 2 ^ n.
Proof.
  intros a b n Hn Ha Hb.
  rewrite <- (Z.mod_small a (2 ^ n)), <- (Z.mod_small b (2 ^ n)) by lia.
  rewrite <- lxor_mod_pow2 by lia. apply Z.mod_pos_bound. apply Z.pow_pos_nonneg; lia.
Qed.

Lemma mask_f_bits : forall k, 0 <= k ->
  Z.testbit 4026531840 k = (28 <=? k) && (k <? 32).
Proof.
  intros k Hk. replace 4026531840 with (Z.shiftl (Z.ones 4) 28) by reflexivity.
  rewrite Z.shiftl_spec by lia.
  destruct (28 <=? k) eqn:E; simpl andb.
  - rewrite Z.testbit_ones_nonneg by lia. lia.
  - apply Z.testbit_neg_r; lia.
Qed.

Lemma hash_step : forall H h c,
  0 <= H < two64 -> 0 <= h < 2 ^ 28 -> H mod 2 ^ 28 = h -> 0 <= c < 256 ->
  let T := u64 (u64 (Z.shiftl H 4) + c) in
  let H' := Z.lxor T (Z.shiftr (Z.land T 4026531840) 24) in
  0 <= H' < two64 /\ 0 <= abi_hash_char h c < 2 ^ 28 /\ H' mod 2 ^ 28 = abi_hash_char h c.
Proof.
  intros H h c HH Hh E Hc T H'.
  set (t := (h * 16 + c) mod 2 ^ 32).
  assert (ET : T mod 2 ^ 32 = t).
  { unfold T, t, u64. rewrite Z.shiftl_mul_pow2 by lia. change (2 ^ 4) with 16.
    rewrite Zplus_mod_idemp_l.
    replace two64 with (2 ^ 32 * 2 ^ 32) by reflexivity.
    rewrite <- E.
    replace ((H * 16 + c)) with ((H mod 2 ^ 28 * 16 + c) + (H / 2 ^ 28) * 2 ^ 32).
    2:{ pose proof (Z.div_mod H (2 ^ 28) ltac:(lia)) as HD. lia. }
    rewrite Z.rem_mul_r by lia.
    rewrite (Z.mul_comm (2 ^ 32) _), Z.mod_add by lia.
    rewrite Z.mod_mod by lia. rewrite Z.mod_add by lia. reflexivity. }
  assert (Ht : 0 <= t < 2 ^ 32) by (apply Z.mod_pos_bound; lia).
  assert (HT : 0 <= T < 2 ^ 64) by (apply Z.mod_pos_bound; lia).
  assert (Eg : Z.land T 4026531840 = Z.land t 4026531840).
  { rewrite <- ET. apply Z.bits_inj'; intros k Hk. rewrite !Z.land_spec, mask_f_bits by lia.
    destruct ((28 <=? k) && (k <? 32)) eqn:Ek; [|now rewrite !andb_false_r].
    rewrite Z.mod_pow2_bits_low by lia. reflexivity. }
  set (g := Z.land t 4026531840) in *.
  assert (Eh : abi_hash_char h c = (Z.lxor t (Z.shiftr g 24)) mod 2 ^ 28).
  { unfold abi_hash_char. fold t. fold g.
    replace (if g =? 0 then t else Z.lxor t (Z.shiftr g 24)) with (Z.lxor t (Z.shiftr g 24)).
    2:{ destruct (g =? 0) eqn:Eg0; [|reflexivity].
        replace g with 0 by lia. rewrite Z.shiftr_0_l, Z.lxor_0_r. reflexivity. }
    apply Z.bits_inj'; intros k Hk. rewrite Z.ldiff_spec, Z.lxor_spec, Z.shiftr_spec by lia.
    assert (Hg : forall j, 0 <= j -> Z.testbit g j = Z.testbit t j && ((28 <=? j) && (j <? 32))).
    { intros j Hj. unfold g. now rewrite Z.land_spec, mask_f_bits. }
    destruct (Z_lt_le_dec k 28).
    - rewrite Z.mod_pow2_bits_low by lia. rewrite Z.lxor_spec, Z.shiftr_spec by lia.
      rewrite (Hg k) by lia. replace (28 <=? k) with false by lia. simpl.
      rewrite andb_false_r. simpl. now rewrite andb_true_r.
    - rewrite Z.mod_pow2_bits_high by lia.
      rewrite (Hg (k + 24)), (Hg k) by lia. replace (k + 24 <? 32) with false by lia.
      rewrite !andb_false_r, xorb_false_r.
      destruct (k <? 32) eqn:E32.
      + replace (28 <=? k) with true by lia. simpl. rewrite andb_true_r. btauto.
      + rewrite (testbit_high t 32 k) by lia. reflexivity. }
  assert (Hs : 0 <= Z.shiftr g 24 < 2 ^ 64).
  { assert (0 <= g < 2 ^ 32).
    { split; [apply Z.land_nonneg; lia|].
      destruct (Z.eq_dec g 0) as [->|]; [lia|].
      apply Z.log2_lt_pow2; [assert (0 <= g) by (apply Z.land_nonneg; lia); lia|].
      pose proof (Z.log2_land t 4026531840 ltac:(lia) ltac:(lia)) as HL.
      change (Z.log2 4026531840) with 31 in HL. unfold g. lia. }
    rewrite Z.shiftr_div_pow2 by lia. Z.div_mod_to_equations; lia. }
  unfold H'. rewrite Eg. split.
  - change two64 with (2 ^ 64). apply lxor_bound; lia.
  - rewrite Eh. split; [apply Z.mod_pos_bound; lia|].
    rewrite !lxor_mod_pow2 by lia. f_equal.
    rewrite <- ET. replace (2 ^ 32) with (2 ^ 28 * 2 ^ 4) by reflexivity.
    rewrite Z.rem_mul_r by lia. rewrite (Z.mul_comm (2 ^ 28)), Z.mod_add by lia.
    now rewrite Z.mod_mod by lia.
Qed.

Lemma dl_hash_loop_abi : forall s rest H h,
  cstring s -> 0 <= H < two64 -> 0 <= h < 2 ^ 28 -> H mod 2 ^ 28 = h ->
  exists H', dl_hash_loop (s ++ 0 :: rest) H = Ok H' /\ 0 <= H' < two64
             /\ H' mod 2 ^ 28 = fold_left abi_hash_char s h
             /\ 0 <= fold_left abi_hash_char s h < 2 ^ 28.
Proof.
  induction s as [|c s IH]; intros rest H h Hs HH Hh E.
  - exists H. simpl. auto.
  - apply Forall_cons_iff in Hs; destruct Hs as [Hc Hs'].
    cbn [app dl_hash_loop fold_left]. replace (c =? 0) with false by lia.
    destruct (hash_step H h c HH Hh E ltac:(lia)) as (A & B & C).
    apply IH; auto.
Qed.

(* the first characters do not need the folding *)
Lemma abi_char_small : forall h c, 0 <= c < 256 -> 0 <= h -> h * 16 + c < 2 ^ 28 ->
  abi_hash_char h c = h * 16 + c.
Proof.
  intros h c Hc Hh Hs. unfold abi_hash_char.
  rewrite Z.mod_small by lia.
  assert (E : Z.land (h * 16 + c) 4026531840 = 0).
  { apply Z.bits_inj'; intros k Hk. rewrite Z.land_spec, mask_f_bits, Z.bits_0 by lia.
    destruct (28 <=? k) eqn:E; simpl; [|apply andb_false_r].
    rewrite (testbit_high (h * 16 + c) 28 k) by lia. reflexivity. }
  rewrite E. simpl. apply Z.ldiff_0_r.
Qed.

Lemma dl_elf_hash_abi : forall s rest, cstring s ->
  dl_elf_hash (s ++ 0 :: rest) = Ok (abi_hash s).
Proof.
  intros s rest Hs. unfold dl_elf_hash, abi_hash, deref.
  assert (U : forall h c, 0 <= h < 2 ^ 28 -> 0 <= c < 256 -> u64 (u64 (Z.shiftl h 4) + c) = h * 16 + c).
  { intros h c Hh Hc. unfold u64. rewrite Z.shiftl_mul_pow2 by lia. change (2 ^ 4) with 16.
    rewrite (Z.mod_small (h * 16)) by lia. apply Z.mod_small; lia. }
  assert (N0 : forall (x : Z) l, znth (x :: l) 0 = Some x) by (intros; apply znth_0).
  assert (NS : forall (x : Z) l i, 0 <= i -> znth (x :: l) (i + 1) = znth l i)
    by (intros; apply znth_succ; lia).
  destruct s as [|c0 s]; cbn [app fold_left]; rewrite N0; cbn [obind].
  { reflexivity. }
  inversion Hs as [|? ? H0 Hs0]; subst. replace (c0 =? 0) with false by lia.
  rewrite (abi_char_small 0 c0) by lia.
  change 1 with (0 + 1) at 1. rewrite NS by lia.
  destruct s as [|c1 s]; cbn [app fold_left]; rewrite N0; cbn [obind].
  { simpl. f_equal. }
  inversion Hs0 as [|? ? H1 Hs1]; subst. replace (c1 =? 0) with false by lia.
  rewrite (abi_char_small (0 * 16 + c0) c1) by lia. rewrite (U c0 c1) by lia.
  change 2 with (0 + 1 + 1) at 1. rewrite !NS by lia.
  destruct s as [|c2 s]; cbn [app fold_left]; rewrite N0; cbn [obind].
  { simpl. unfold u32. rewrite Z.mod_small by lia. f_equal; ring. }
  inversion Hs1 as [|? ? H2 Hs2]; subst. replace (c2 =? 0) with false by lia.
  rewrite (abi_char_small ((0 * 16 + c0) * 16 + c1) c2) by lia.
  rewrite (U (c0 * 16 + c1) c2) by lia.
  change 3 with (0 + 1 + 1 + 1) at 1. rewrite !NS by lia.
  destruct s as [|c3 s]; cbn [app fold_left]; rewrite N0; cbn [obind].
  { rewrite Z.eqb_refl. unfold u32. rewrite Z.mod_small by lia. f_equal; ring. }
  inversion Hs2 as [|? ? H3 Hs3]; subst. replace (c3 =? 0) with false by lia.
  rewrite (abi_char_small (((0 * 16 + c0) * 16 + c1) * 16 + c2) c3) by lia.
  rewrite (U ((c0 * 16 + c1) * 16 + c2) c3) by lia.
  match goal with |- context [znth ?l 4] => change (znth l 4) with (znth l (0 + 1 + 1 + 1 + 1)) end.
  rewrite !NS by lia.
  destruct s as [|c4 s]; cbn [app fold_left]; rewrite N0; cbn [obind].
  { rewrite Z.eqb_refl. unfold u32. rewrite Z.mod_small by lia. f_equal; ring. }
  inversion Hs3 as [|? ? H4 Hs4]; subst. replace (c4 =? 0) with false by lia.
  rewrite (abi_char_small ((((0 * 16 + c0) * 16 + c1) * 16 + c2) * 16 + c3) c4) by lia.
  rewrite (U (((c0 * 16 + c1) * 16 + c2) * 16 + c3) c4) by lia.
  cbn [skipn].
  change (0 * 16 + c0) with c0.
  set (h4 := (((c0 * 16 + c1) * 16 + c2) * 16 + c3) * 16 + c4).
  assert (B4 : 0 <= h4 < 2 ^ 28) by (unfold h4; lia).
  destruct (dl_hash_loop_abi s rest h4 h4 Hs4 ltac:(lia) B4 ltac:(apply Z.mod_small; lia))
    as (H' & E & Hb & E2 & Hb2).
  rewrite E. cbn [obind]. f_equal.
  change 268435455 with (2 ^ 28 - 1). rewrite land_mask by lia.
  rewrite E2. unfold u32. apply Z.mod_small. lia.
Qed.

(* ------------------------------------------------------------------ *)
(* GNU hash *)
Lemma gnu_hash_loop_sum : forall s rest h,
  cstring s -> 0 <= h < two64 ->
  gnu_hash_loop (s ++ 0 :: rest) h = Ok ((h * 33 ^ zlen s + gnu_sum s) mod two64).
Proof.
  induction s as [|c s IH]; intros rest h Hs Hh.
  - cbn [app gnu_hash_loop gnu_sum]. rewrite zlen_nil. simpl.
    rewrite Z.mul_1_r, Z.add_0_r, Z.mod_small by lia. reflexivity.
  - inversion Hs as [|? ? Hc Hs']; subst.
    cbn [app gnu_hash_loop gnu_sum]. replace (c =? 0) with false by lia.
    rewrite IH; [|assumption|unfold u64; apply Z.mod_pos_bound; lia].
    f_equal. unfold u64. rewrite Zplus_mod_idemp_l.
    rewrite Z.add_mod by lia.
    rewrite Zmult_mod_idemp_l. rewrite <- Z.add_mod by lia.
    f_equal. rewrite zlen_cons, Z.pow_add_r by (pose proof (zlen_nonneg _ s); lia).
    ring.
Qed.

Lemma elf_gnu_hash_correct : forall s rest, cstring s ->
  elf_gnu_hash (s ++ 0 :: rest) = Ok (gnu_hash_number s mod 2 ^ 32).
Proof.
  intros s rest Hs. unfold elf_gnu_hash. rewrite gnu_hash_loop_sum by (auto; lia).
  cbn [obind]. f_equal. change 4294967295 with (2 ^ 32 - 1). rewrite land_mask by lia.
  unfold gnu_hash_number. replace two64 with (2 ^ 32 * 2 ^ 32) by reflexivity.
  rewrite Z.rem_mul_r by lia. rewrite (Z.mul_comm (2 ^ 32)), Z.mod_add by lia.
  now rewrite Z.mod_mod by lia.
Qed.

(* ------------------------------------------------------------------ *)
(* CRC *)
Definition crc_shift (x : Z) : Z := Z.lxor (Z.shiftr x 1) (if Z.odd x then crc_poly else 0).
Definition crc_shift8 (x : Z) : Z :=
  crc_shift (crc_shift (crc_shift (crc_shift (crc_shift (crc_shift (crc_shift (crc_shift x))))))).

Lemma odd_lxor : forall a b, Z.odd (Z.lxor a b) = xorb (Z.odd a) (Z.odd b).
Proof. intros. rewrite <- !Z.bit0_odd. apply Z.lxor_spec. Qed.

Lemma crc_shift_lxor : forall a b, crc_shift (Z.lxor a b) = Z.lxor (crc_shift a) (crc_shift b).
Proof.
  intros a b; unfold crc_shift. rewrite Z.shiftr_lxor, odd_lxor.
  apply Z.bits_inj'; intros k Hk. rewrite !Z.lxor_spec.
  destruct (Z.odd a), (Z.odd b); simpl xorb; rewrite ?Z.bits_0; btauto.
Qed.

Lemma crc_shift_even : forall a, crc_shift (a * 2) = a.
Proof.
  intros a; unfold crc_shift. rewrite Z.odd_mul. change (Z.odd 2) with false.
  rewrite andb_false_r, Z.lxor_0_r, Z.shiftr_div_pow2 by lia.
  change (2 ^ 1) with 2. apply Z.div_mul; lia.
Qed.

Lemma crc_shift8_lxor : forall a b, crc_shift8 (Z.lxor a b) = Z.lxor (crc_shift8 a) (crc_shift8 b).
Proof. intros; unfold crc_shift8; now rewrite !crc_shift_lxor. Qed.

Lemma crc_shift8_high : forall a, crc_shift8 (a * 256) = a.
Proof.
  intros a; unfold crc_shift8.
  replace (a * 256) with (a * 2 * 2 * 2 * 2 * 2 * 2 * 2 * 2) by lia.
  now rewrite !crc_shift_even.
Qed.

Lemma crc_table_entry : forall i, 0 <= i < 256 ->
  nth (Z.to_nat i) crc32_table 0 = crc_shift8 i.
Proof.
  intros i Hi.
  assert (A : forallb (fun n => Z.eqb (nth n crc32_table 0) (crc_shift8 (Z.of_nat n))) (seq 0 256) = true)
    by (vm_compute; reflexivity).
  rewrite forallb_forall in A.
  specialize (A (Z.to_nat i)). rewrite Z2Nat.id in A by lia.
  apply Z.eqb_eq. apply A. apply in_seq. split; [lia|].
  assert (Z.of_nat (0 + 256) = 256) by reflexivity. lia.
Qed.

Lemma split_low8 : forall x, x = Z.lxor (Z.land x 255) (Z.shiftr x 8 * 256).
Proof.
  intros x. rewrite land_255, Z.shiftr_div_pow2 by lia. change (2 ^ 8) with 256.
  rewrite <- Z.add_nocarry_lxor.
  - pose proof (Z.div_mod x 256 ltac:(lia)); lia.
  - apply Z.bits_inj'; intros k Hk. rewrite Z.land_spec, Z.bits_0.
    replace (x / 256 * 256) with (x / 2 ^ 8 * 2 ^ 8) by reflexivity.
    replace (x mod 256) with (x mod 2 ^ 8) by reflexivity.
    destruct (Z_lt_le_dec k 8).
    + rewrite <- Z.shiftl_mul_pow2, Z.shiftl_spec_low by lia. apply andb_false_r.
    + rewrite Z.mod_pow2_bits_high by lia. reflexivity.
Qed.

Lemma crc32_step_shift8 : forall crc b, 0 <= b < 256 ->
  crc32_step crc b = crc_shift8 (Z.lxor crc b).
Proof.
  intros crc b Hb. unfold crc32_step.
  rewrite (split_low8 (Z.lxor crc b)) at 2.
  rewrite crc_shift8_lxor, crc_shift8_high.
  rewrite crc_table_entry.
  - f_equal. rewrite Z.shiftr_lxor.
    rewrite (Z.shiftr_div_pow2 b) by lia. change (2 ^ 8) with 256.
    rewrite (Z.div_small b) by lia. now rewrite Z.lxor_0_r.
  - rewrite land_255. apply Z.mod_pos_bound; lia.
Qed.

(* one bit of the register machine = one shift of the register xored with
   the remaining message byte *)
Lemma crc_bit_shift : forall r b,
  Z.lxor (crc_bit r (Z.testbit b 0)) (Z.shiftr b 1) = crc_shift (Z.lxor r b).
Proof.
  intros r b. unfold crc_bit, crc_shift. rewrite Z.shiftr_lxor, odd_lxor, Z.bit0_odd.
  replace (r / 2) with (Z.shiftr r 1) by (now rewrite Z.shiftr_div_pow2 by lia).
  apply Z.bits_inj'; intros k Hk. rewrite !Z.lxor_spec. btauto.
Qed.

Lemma crc_byte : forall b r, 0 <= b < 256 ->
  fold_left crc_bit (byte_bits b) r = crc_shift8 (Z.lxor r b).
Proof.
  intros b r Hb. unfold byte_bits, crc_shift8. cbn [map fold_left].
  assert (T : forall i, 0 <= i -> Z.testbit b i = Z.testbit (Z.shiftr b i) 0).
  { intros i Hi. rewrite Z.shiftr_spec by lia. now rewrite Z.add_0_l. }
  assert (SS : forall i, 0 <= i -> Z.shiftr (Z.shiftr b i) 1 = Z.shiftr b (i + 1)).
  { intros; rewrite Z.shiftr_shiftr by lia. reflexivity. }
  rewrite <- crc_bit_shift.
  rewrite <- (crc_bit_shift _ (Z.shiftr b 1)), SS, <- T by lia.
  rewrite <- (crc_bit_shift _ (Z.shiftr b (1 + 1))), SS, <- T by lia.
  rewrite <- (crc_bit_shift _ (Z.shiftr b (1 + 1 + 1))), SS, <- T by lia.
  rewrite <- (crc_bit_shift _ (Z.shiftr b (1 + 1 + 1 + 1))), SS, <- T by lia.
  rewrite <- (crc_bit_shift _ (Z.shiftr b (1 + 1 + 1 + 1 + 1))), SS, <- T by lia.
  rewrite <- (crc_bit_shift _ (Z.shiftr b (1 + 1 + 1 + 1 + 1 + 1))), SS, <- T by lia.
  rewrite <- (crc_bit_shift _ (Z.shiftr b (1 + 1 + 1 + 1 + 1 + 1 + 1))), SS, <- T by lia.
  replace (Z.shiftr b (1 + 1 + 1 + 1 + 1 + 1 + 1 + 1)) with 0.
  - rewrite Z.lxor_0_r. reflexivity.
  - rewrite Z.shiftr_div_pow2 by lia. symmetry. apply Z.div_small. simpl; lia.
Qed.

Lemma crc_fold_register : forall buf r, bytes_ok buf ->
  fold_left crc32_step buf r = crc_register r buf.
Proof.
  induction buf as [|b buf IH]; intros r H; [reflexivity|].
  inversion H as [|? ? Hb Hbuf]; subst. unfold is_u8 in Hb.
  cbn [fold_left]. unfold crc_register, message_bits in *. cbn [flat_map].
  rewrite fold_left_app, crc_byte by lia.
  rewrite crc32_step_shift8 by lia. now apply IH.
Qed.

Lemma not32_lxor : forall x, 0 <= x < two32 -> not32 x = Z.lxor x 4294967295.
Proof.
  intros x Hx. unfold not32.
  replace (two32 - 1 - x) with ((- x - 1) mod 2 ^ 32).
  - apply Z.bits_inj'; intros k Hk. rewrite Z.lxor_spec.
    change 4294967295 with (Z.ones 32). rewrite Z.testbit_ones_nonneg by lia.
    destruct (k <? 32) eqn:E.
    + rewrite Z.mod_pow2_bits_low by lia.
      replace (- x - 1) with (Z.lnot x) by (unfold Z.lnot; lia).
      rewrite Z.lnot_spec by lia. now rewrite xorb_true_r.
    + rewrite Z.mod_pow2_bits_high by lia. rewrite (testbit_high x 32 k) by lia. reflexivity.
  - replace (- x - 1) with (two32 - 1 - x + (-1) * 2 ^ 32) by lia.
    rewrite Z.mod_add by lia. apply Z.mod_small; lia.
Qed.

Lemma crc_shift_bound : forall x, 0 <= x < 2 ^ 32 -> 0 <= crc_shift x < 2 ^ 32.
Proof.
  intros x Hx; unfold crc_shift. apply lxor_bound; [lia| |destruct (Z.odd x); unfold crc_poly; lia].
  rewrite Z.shiftr_div_pow2 by lia. change (2 ^ 1) with 2. Z.div_mod_to_equations; lia.
Qed.

Lemma crc32_step_bound : forall crc b, 0 <= crc < 2 ^ 32 -> 0 <= b < 256 ->
  0 <= crc32_step crc b < 2 ^ 32.
Proof.
  intros crc b Hc Hb. rewrite crc32_step_shift8 by lia. unfold crc_shift8.
  do 8 apply crc_shift_bound. apply lxor_bound; lia.
Qed.

Lemma crc_fold_bound : forall buf r, bytes_ok buf -> 0 <= r < 2 ^ 32 ->
  0 <= fold_left crc32_step buf r < 2 ^ 32.
Proof.
  induction buf as [|b buf IH]; intros r H Hr; [exact Hr|].
  inversion H as [|? ? Hb Hbuf]; subst. cbn [fold_left]. apply IH; [assumption|].
  apply crc32_step_bound; [lia|exact Hb].
Qed.

Lemma not32_invol : forall x, not32 (not32 x) = x.
Proof. intros; unfold not32; lia. Qed.

Lemma crc32_app : forall c a b, crc32 (crc32 c a) b = crc32 c (a ++ b).
Proof. intros; unfold crc32. now rewrite not32_invol, fold_left_app. Qed.

Lemma crc32_nil : forall c, crc32 c [] = c.
Proof. intros; unfold crc32; simpl; apply not32_invol. Qed.

Lemma crc32_ieee : forall buf, bytes_ok buf -> crc32 0 buf = ieee_crc32 buf.
Proof.
  intros buf H. unfold crc32, ieee_crc32.
  rewrite not32_lxor.
  - rewrite crc_fold_register by assumption. reflexivity.
  - change (not32 0) with (2 ^ 32 - 1). apply crc_fold_bound; [assumption|lia].
Qed.

(* ------------------------------------------------------------------ *)
(* crc32_file *)
Lemma firstn_whole : forall (d : bytes) n, zlen d <= n -> firstn (Z.to_nat n) d = d.
Proof. intros d n H. apply firstn_all2. unfold zlen in H; lia. Qed.

Lemma crc_read_loop_ok : forall fuel n env data off crc,
  0 <= off <= zlen data -> crc = crc32 0 (firstn (Z.to_nat off) data) ->
  (Z.to_nat (zlen data - off) < fuel)%nat ->
  exists code crc', crc_read_loop fuel n env data off crc = Ok (code, crc')
    /\ (code = 0 \/ code = -1)
    /\ (code = 0 -> crc' = crc32 0 data).
Proof.
  induction fuel as [|fuel IH]; intros n env data off crc Ho Hc Hf; [lia|].
  cbn [crc_read_loop]. unfold pread_count.
  destruct (env_pread env n) as [k|].
  - destruct (zlen data - off <=? 0) eqn:El.
    + simpl. exists 0, crc. split; [reflexivity|]. split; [auto|].
      intros _. subst crc. rewrite firstn_whole by lia. reflexivity.
    + set (cnt := Z.min (Z.min 8192 (zlen data - off)) (Z.max 1 k)).
      assert (Hcnt : 0 < cnt <= zlen data - off) by (unfold cnt; lia).
      replace (0 <? cnt) with true by lia.
      unfold read_bytes. replace ((0 <=? off) && (off + cnt <=? zlen data)) with true by lia.
      cbn [obind]. apply IH; [lia| |lia].
      rewrite Hc, crc32_app, zsub_split by lia. reflexivity.
  - exists (-1), crc. split; [reflexivity|]. split; [auto|]. intros; lia.
Qed.

Lemma crc_map_loop_ok : forall fuel nmap env data mapsize st off crc rfuel,
  0 < mapsize -> 0 <= off -> 0 <= st -> off + st = zlen data ->
  crc = crc32 0 (firstn (Z.to_nat off) data) ->
  (Z.to_nat st < fuel)%nat -> (length data < rfuel)%nat ->
  exists code crc', crc_map_loop fuel nmap env data mapsize st off crc rfuel = Ok (code, crc')
    /\ (code = 0 \/ code = -1)
    /\ (code = 0 -> crc' = crc32 0 data).
Proof.
  induction fuel as [|fuel IH]; intros nmap env data mapsize st off crc rfuel Hm Ho Hst Hsum Hc Hf Hrf; [lia|].
  cbn [crc_map_loop]. destruct (st <=? mapsize) eqn:E.
  - unfold read_bytes. replace ((0 <=? off) && (off + st <=? zlen data)) with true by lia.
    cbn [obind]. eexists 0, _. split; [reflexivity|]. split; [auto|]. intros _.
    rewrite Hc, crc32_app, zsub_split by lia. rewrite firstn_whole by lia. reflexivity.
  - unfold read_bytes. replace ((0 <=? off) && (off + mapsize <=? zlen data)) with true by lia.
    cbn [obind].
    assert (Hc' : crc32 crc (zsub data off mapsize) = crc32 0 (firstn (Z.to_nat (off + mapsize)) data)).
    { rewrite Hc, crc32_app, zsub_split by lia. reflexivity. }
    destruct (env_mmap env nmap).
    + apply IH; auto; lia.
    + apply crc_read_loop_ok; auto; unfold zlen in *; lia.
    + apply crc_read_loop_ok; auto; unfold zlen in *; lia.
Qed.

Lemma crc_halve_ok : forall fuel nmap env mapsize,
  0 < env_pagesize env -> 0 <= mapsize -> (Z.to_nat mapsize < fuel)%nat ->
  exists r n, crc_halve fuel nmap env mapsize = Ok (r, n)
              /\ (forall m, r = Some m -> 0 < m).
Proof.
  induction fuel as [|fuel IH]; intros nmap env mapsize Hp Hm Hf; [lia|].
  cbn [crc_halve]. destruct (env_pagesize env <=? mapsize) eqn:E.
  - destruct (env_mmap env nmap).
    + eexists _, _; split; [reflexivity|]. intros m Hmm; inversion Hmm; subst; lia.
    + apply IH; auto; [Z.div_mod_to_equations; lia|].
      assert (mapsize / 2 < mapsize) by (Z.div_mod_to_equations; lia). lia.
    + eexists _, _; split; [reflexivity|]. discriminate.
  - eexists _, _; split; [reflexivity|]. discriminate.
Qed.

Lemma half_pages_bound : forall s p, 0 < p -> 0 <= s -> 0 <= half_pages s p <= s + p.
Proof.
  intros s p Hp Hs; unfold half_pages.
  assert (0 <= s / 2 <= s) by (Z.div_mod_to_equations; lia).
  pose proof (Z.div_mod (s / 2 + p - 1) p ltac:(lia)).
  pose proof (Z.mod_pos_bound (s / 2 + p - 1) p ltac:(lia)).
  assert (0 <= (s / 2 + p - 1) / p) by (apply Z.div_pos; lia). nia.
Qed.

Lemma crc32_file_ok : forall env data fuel,
  0 < env_pagesize env -> zlen data + env_pagesize env < Z.of_nat fuel ->
  exists code crc, crc32_file fuel env data = Ok (code, crc)
    /\ (code = 0 \/ code = -1)
    /\ (code = 0 -> crc = crc32 0 data).
Proof.
  intros env data fuel Hp Hf. unfold crc32_file.
  pose proof (zlen_nonneg _ data) as Hz.
  assert (R : exists code crc, crc_read_loop fuel 0 env data 0 0 = Ok (code, crc)
     /\ (code = 0 \/ code = -1) /\ (code = 0 -> crc = crc32 0 data)).
  { apply crc_read_loop_ok; [lia| |unfold zlen in *; lia].
    simpl. now rewrite crc32_nil. }
  assert (M : forall nmap m, 0 < m -> exists code crc,
     crc_map_loop fuel nmap env data m (zlen data) 0 0 fuel = Ok (code, crc)
     /\ (code = 0 \/ code = -1) /\ (code = 0 -> crc = crc32 0 data)).
  { intros nmap m Hm. apply crc_map_loop_ok; try lia; [|unfold zlen in *; lia].
    simpl. now rewrite crc32_nil. }
  destruct (env_fstat_ok env); [|exact R].
  destruct (zlen data =? 0) eqn:E0; [exact R|].
  destruct (env_mmap env 0).
  - apply M; lia.
  - pose proof (half_pages_bound (zlen data) (env_pagesize env) Hp Hz).
    destruct (crc_halve_ok fuel 1 env (half_pages (zlen data) (env_pagesize env)) Hp ltac:(lia) ltac:(lia))
      as (r & n & E & Hr).
    rewrite E. cbn [obind]. destruct r as [m|]; [apply M; auto|exact R].
  - exact R.
Qed.

(* the pread loop fails only when a pread fails *)
Lemma crc_read_loop_success : forall fuel n env data off crc,
  (forall k, env_pread env k <> None) -> 0 <= off <= zlen data ->
  (Z.to_nat (zlen data - off) < fuel)%nat ->
  exists crc', crc_read_loop fuel n env data off crc = Ok (0, crc').
Proof.
  induction fuel as [|fuel IH]; intros n env data off crc He Ho Hf; [lia|].
  cbn [crc_read_loop]. unfold pread_count. specialize (He n) as Hn.
  destruct (env_pread env n) as [k|]; [|congruence].
  destruct (zlen data - off <=? 0) eqn:El; [simpl; eauto|].
  set (cnt := Z.min (Z.min 8192 (zlen data - off)) (Z.max 1 k)).
  assert (Hcnt : 0 < cnt <= zlen data - off) by (unfold cnt; lia).
  replace (0 <? cnt) with true by lia.
  unfold read_bytes. replace ((0 <=? off) && (off + cnt <=? zlen data)) with true by lia.
  cbn [obind]. apply IH; auto; lia.
Qed.

Lemma crc_map_loop_success : forall fuel nmap env data mapsize st off crc rfuel,
  (forall k, env_pread env k <> None) ->
  0 < mapsize -> 0 <= off -> 0 <= st -> off + st = zlen data ->
  (Z.to_nat st < fuel)%nat -> (length data < rfuel)%nat ->
  exists crc', crc_map_loop fuel nmap env data mapsize st off crc rfuel = Ok (0, crc').
Proof.
  induction fuel as [|fuel IH]; intros nmap env data mapsize st off crc rfuel He Hm Ho Hst Hsum Hf Hrf; [lia|].
  cbn [crc_map_loop]. destruct (st <=? mapsize) eqn:E.
  - unfold read_bytes. replace ((0 <=? off) && (off + st <=? zlen data)) with true by lia.
    cbn [obind]. eauto.
  - unfold read_bytes. replace ((0 <=? off) && (off + mapsize <=? zlen data)) with true by lia.
    cbn [obind].
    destruct (env_mmap env nmap).
    + apply IH; auto; lia.
    + apply crc_read_loop_success; auto; unfold zlen in *; lia.
    + apply crc_read_loop_success; auto; unfold zlen in *; lia.
Qed.

Lemma crc32_file_success : forall env data fuel,
  0 < env_pagesize env -> zlen data + env_pagesize env < Z.of_nat fuel ->
  (forall k, env_pread env k <> None) ->
  crc32_file fuel env data = Ok (0, crc32 0 data).
Proof.
  intros env data fuel Hp Hf He.
  destruct (crc32_file_ok env data fuel Hp Hf) as (code & crc & E & _ & Hv).
  assert (S : exists c, crc32_file fuel env data = Ok (0, c)).
  { clear E Hv. unfold crc32_file. pose proof (zlen_nonneg _ data) as Hz.
    assert (R : exists c, crc_read_loop fuel 0 env data 0 0 = Ok (0, c)).
    { apply crc_read_loop_success; auto; unfold zlen in *; lia. }
    destruct (env_fstat_ok env); [|exact R].
    destruct (zlen data =? 0) eqn:E0; [exact R|].
    destruct (env_mmap env 0).
    - apply crc_map_loop_success; auto; unfold zlen in *; lia.
    - pose proof (half_pages_bound (zlen data) (env_pagesize env) Hp Hz).
      destruct (crc_halve_ok fuel 1 env (half_pages (zlen data) (env_pagesize env)) Hp ltac:(lia) ltac:(lia))
        as (r & n & E & Hr).
      rewrite E. cbn [obind]. destruct r as [m|]; [|exact R].
      apply crc_map_loop_success; auto; unfold zlen in *; lia.
    - exact R. }
  destruct S as [c Hc]. rewrite Hc in E. inversion E; subst. rewrite Hc. now rewrite Hv.
Qed.
