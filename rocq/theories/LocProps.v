(* C42: location expressions are decoded completely and in order. *)
From Verif Require Import Base LebModel LebSpec LebProof DwModel Slice CfiSpec CfiModel CfiProof FormModel LocModel LocSpec CfiSafe ArangeProps.
Require Import ZArith List Lia Bool ZifyBool Sorting.Sorted. Import ListNotations. Open Scope Z_scope.

Definition env_of (c : loc) : env := Env (l_fle c) (l_asize c) (l_rsize c).
Definition sizes (c : loc) : Prop := (l_asize c = 4 \/ l_asize c = 8) /\ (l_rsize c = 4 \/ l_rsize c = 8) /\ zlen (l_mem c) < two63.
(* What the decoder requires beyond the standard: a descriptor for operations that refer to
   .debug_info or carry a block, and offsets inside .debug_info; and what it gets wrong: offsets
   with the top bit set in DW_OP_call2, DW_OP_call4 and DW_OP_GNU_parameter_ref, negative
   offsets in DW_OP_implicit_pointer. *)
Definition usual (c : loc) (o : operation) : Prop :=
  let x := opcode o in
  (x = 152 -> forall n b, args o = [(Num n, b)] -> n < 2 ^ 15) /\
  (x = 153 \/ x = 250 -> forall n b, args o = [(Num n, b)] -> n < 2 ^ 31) /\
  (x = 160 \/ x = 242 -> forall a n b, args o = [a; (Num n, b)] -> 0 <= n) /\
  (In x [154; 253; 160; 242; 158; 163; 243] -> l_dbg c = true) /\
  (In x [154; 253; 160; 242] -> forall n b r, args o = (Num n, b) :: r -> exists info, l_info c = Some info /\ n <= zlen info).

Lemma uleb_sleb_value : forall b, LebSpec.leb_complete b -> 0 <= sleb_value b -> uleb_value b = sleb_value b.
Proof.
  induction b as [|x b IH]; intros C N; [destruct C|]. destruct b as [|y b].
  - cbn in C, N |- *. rewrite Z.mod_small by lia. destruct (x <? 64) eqn:E; lia.
  - destruct C as [X C]. change (sleb_value (x :: y :: b)) with (x mod 128 + 128 * sleb_value (y :: b)) in *. change (uleb_value (x :: y :: b)) with (x mod 128 + 128 * uleb_value (y :: b)).
    pose proof (Z.mod_pos_bound x 128 ltac:(lia)). rewrite (IH C) by lia. reflexivity.
Qed.
Lemma uleb_value_bound : forall b, 0 <= uleb_value b < 128 ^ zlen b.
Proof.
  induction b as [|x b IH]; [cbn; lia|]. rewrite zlen_cons, Z.pow_add_r by (try apply zlen_nonneg; lia). cbn [uleb_value]. pose proof (Z.mod_pos_bound x 128 ltac:(lia)). change (128 ^ 1) with 128. nia.
Qed.
Lemma sleb_uleb : forall b n, sleb_of n b -> 0 <= n -> uleb_of n b.
Proof.
  intros b n (C & L & V) N. split; [exact C|]. split; [lia|]. assert (E : uleb_value b = n) by (subst n; apply uleb_sleb_value; assumption). split; [exact E|].
  pose proof (uleb_value_bound b) as B. assert (128 ^ zlen b <= 128 ^ 9) by (apply Z.pow_le_mono_r; lia). change (128 ^ 9) with two63 in *. lia.
Qed.

Lemma one_byte : forall (v : Z) fle, 0 <= v < 256 -> enc fle 1 v = [v].
Proof. intros v fle V. unfold enc, be_bytes. change (Z.to_nat 1) with 1%nat. destruct fle; cbn [le_bytes rev app]; rewrite Z.mod_small by lia; reflexivity. Qed.
Lemma signed_read : forall w n, w = 1 \/ w = 2 \/ w = 4 \/ w = 8 -> - 2 ^ (8 * w - 1) <= n < 2 ^ (8 * w - 1) ->
  (n mod 256 ^ w + 2 ^ (8 * w - 1)) mod 256 ^ w - 2 ^ (8 * w - 1) = n.
Proof. intros w n W N. replace (256 ^ w) with (2 ^ (8 * w)) by (change 256 with (2 ^ 8); rewrite <- Z.pow_mul_r by lia; reflexivity). apply wrap_signed; lia. Qed.

Lemma fixed_at : forall c p e w n (r : bytes), 0 <= w -> 0 <= n < 256 ^ w -> at_ (l_mem c) p (enc (l_fle c) w n ++ r) -> p + zlen (enc (l_fle c) w n ++ r) <= e ->
  (if e <? p + w then Err DWARF_E_INVALID_DWARF else rd (l_fle c) (l_mem c) p w) = Ok n.
Proof.
  intros c p e w n r W N A E. rewrite zlen_app, zlen_enc in E by exact W. pose proof (zlen_nonneg _ r). replace (e <? p + w) with false by lia. apply rd_at; [exact W|exact N|exact (at_app1 _ _ _ _ A)].
Qed.
Lemma address_at : forall c p n w (r : bytes), w = 4 \/ w = 8 -> 0 <= n < 256 ^ w -> at_ (l_mem c) p (enc (l_fle c) w n ++ r) -> read_address (l_fle c) (l_mem c) p w = Ok n.
Proof.
  intros c p n w r W N A. destruct (at_bound _ _ _ A) as [B0 B1]. rewrite zlen_app, zlen_enc in B1 by lia. pose proof (zlen_nonneg _ r). unfold read_address, in_section.
  replace (negb ((p <? 0) || (zlen (l_mem c) <? w) || (zlen (l_mem c) - w <? p))) with true by lia. replace (if w =? 4 then 4 else 8) with w by (destruct W; subst; reflexivity).
  apply rd_at; [lia|exact N|exact (at_app1 _ _ _ _ A)].
Qed.
Lemma offset_at : forall c p n (r : bytes) info, l_rsize c = 4 \/ l_rsize c = 8 -> 0 <= n < 256 ^ l_rsize c -> at_ (l_mem c) p (enc (l_fle c) (l_rsize c) n ++ r) ->
  l_dbg c = true -> l_info c = Some info -> n <= zlen info -> loc_offset c p = Ok (n, p + l_rsize c).
Proof.
  intros c p n r info W N A DB IN LE. unfold loc_offset, read_offset. rewrite DB, (address_at c p n (l_rsize c) r W N A). cbn [obind]. rewrite IN. unfold offset_in_section.
  replace ((zlen info <? n) || (zlen info <? 0) || (zlen info - 0 <? n)) with false by lia. reflexivity.
Qed.
Lemma uleb_here : forall c p e v b (r : bytes), uleb_of v b -> at_ (l_mem c) p (b ++ r) -> p + zlen (b ++ r) <= e -> get_uleb128 (l_mem c) p e = Ok (v, p + zlen b).
Proof. intros c p e v b r U A E. rewrite zlen_app in E. pose proof (zlen_nonneg _ r). apply uleb_at; [exact U|exact (at_app1 _ _ _ _ A)|lia]. Qed.
Lemma sleb_here : forall c p e v b (r : bytes), sleb_of v b -> at_ (l_mem c) p (b ++ r) -> p + zlen (b ++ r) <= e -> get_sleb128 (l_mem c) p e = Ok (v, p + zlen b).
Proof. intros c p e v b r U A E. rewrite zlen_app in E. pose proof (zlen_nonneg _ r). apply sleb_at; [exact U|exact (at_app1 _ _ _ _ A)|lia]. Qed.

(* The three shapes of the operation table: no, one and two arguments. *)
Inductive one : kind -> Z -> Prop :=
  | O_addr : one KAddr 3
  | O_ref : forall x, In x [154; 253] -> one KRef x
  | O_u : forall w x, In (w, x) [(1, 8); (1, 21); (1, 148); (1, 149); (2, 10); (4, 12); (8, 14); (2, 152); (4, 153); (4, 250)] -> one (KU w) x
  | O_s : forall w x, In (w, x) [(1, 9); (2, 11); (2, 40); (2, 47); (4, 13); (8, 15)] -> one (KS w) x
  | O_uleb : forall x, In x [16; 35; 144; 147; 161; 162; 168; 169; 247; 249; 251; 252] -> one KUleb x
  | O_sleb : forall x, x = 17 \/ x = 145 \/ 112 <= x <= 143 -> one KSleb x
  | O_block : forall x, In x [158; 163; 243] -> one KBlock x.
Inductive two_ : kind -> kind -> Z -> Prop :=
  | T_bregx : two_ KUleb KSleb 146
  | T_uu : forall x, In x [157; 165; 245] -> two_ KUleb KUleb x
  | T_ptr : forall x, In x [160; 242] -> two_ KRef KSleb x
  | T_deref : forall x, In x [166; 167; 246] -> two_ (KU 1) KUleb x
  | T_const : forall x, In x [164; 244] -> two_ KUleb KBlock1 x.
Lemma shapes : forall x ks, signature x ks -> (ks = [] /\ no_operand x = true) \/ (exists k, ks = [k] /\ one k x) \/ (exists k k', ks = [k; k'] /\ two_ k k' x).
Proof.
  intros x ks H. destruct H as [x ks I|x R|x R].
  - unfold table in I. repeat (destruct I as [I|I]; [injection I as <- <-;
      first [left; split; [reflexivity|reflexivity] | right; left; eexists; split; [reflexivity|constructor; cbn; tauto] | right; left; eexists; split; [reflexivity|constructor] | right; right; eexists _, _; split; [reflexivity|constructor; cbn; tauto] | right; right; eexists _, _; split; [reflexivity|constructor]]|]). destruct I.
  - left. split; [reflexivity|]. unfold no_operand, in_range, among. replace ((48 <=? x) && (x <=? 111)) with true by lia. rewrite !orb_true_r. reflexivity.
  - right. left. exists KSleb. split; [reflexivity|]. constructor. lia.
Qed.
Ltac op_red := cbn -[get_uleb128 get_sleb128 rd byte_at loc_address loc_offset read_address u64 s8 s16 s32 s64 zlen zsub at_ Z.add Z.sub Z.ltb Z.leb].
Lemma operands_none : forall c x p e, no_operand x = true -> operands c x p e = Ok (0, 0, p).
Proof.
  intros c x p e N. unfold operands. replace (x =? 3) with false by (unfold no_operand, in_range, among in N; cbn [existsb] in N; lia).
  replace (among [154; 253] x) with false by (unfold no_operand, in_range, among in *; cbn [existsb] in *; lia). rewrite N. reflexivity.
Qed.
Lemma operands_one : forall c k x a b p e, sizes c -> one k x -> arg_bytes (env_of c) k a b -> usual c (Operation x [(a, b)]) -> at_ (l_mem c) p b -> p + zlen b <= e -> e <= zlen (l_mem c) ->
  operands c x p e = Ok (numbers p [(a, b)], p + zlen b).
Proof.
  intros c k x a b p e (SA & SR & SM) O B (U1 & U2 & U3 & U4 & U5) A E M. cbn [opcode args] in *. destruct (at_bound _ _ _ A) as [P0 _].
  destruct O as [|x X|w x X|w x X|x X|x X|x X]; inversion B as [n N|n N|w' n N|w' n N|n b' N|n b' N|x' b' N|b' N]; subst; cbn [numbers env_of e_le e_addr e_ref] in *.
  - rewrite <- (app_nil_r (enc _ _ _)) in A. rewrite zlen_enc in E |- * by lia.
    assert (V64 : n mod two64 = n). { apply Z.mod_small. assert (256 ^ l_asize c <= 256 ^ 8) by (apply Z.pow_le_mono_r; lia). change (256 ^ 8) with two64 in *. lia. } rewrite V64.
    unfold operands. change (3 =? 3) with true. cbn iota. destruct (l_dbg c).
    + unfold loc_address. rewrite (address_at c p n (l_asize c) [] SA N A). reflexivity.
    + destruct SA as [SA|SA]; rewrite SA in *.
      * change (4 =? 4) with true. cbn iota. rewrite (fixed_at c p e 4 n [] ltac:(lia) N A) by (rewrite app_nil_r, zlen_enc; lia). reflexivity.
      * change (8 =? 4) with false. cbn iota. rewrite (fixed_at c p e 8 n [] ltac:(lia) N A) by (rewrite app_nil_r, zlen_enc; lia). reflexivity.
  - rewrite <- (app_nil_r (enc _ _ _)) in A. rewrite zlen_enc in E |- * by lia.
    assert (V64 : n mod two64 = n). { apply Z.mod_small. assert (256 ^ l_rsize c <= 256 ^ 8) by (apply Z.pow_le_mono_r; lia). change (256 ^ 8) with two64 in *. lia. } rewrite V64.
    assert (D1 : l_dbg c = true) by (apply U4; cbn in X |- *; tauto). destruct (U5 ltac:(cbn in X |- *; tauto) n _ _ eq_refl) as (info & IN & LE).
    pose proof (offset_at c p n [] info SR N A D1 IN LE) as OA. destruct X as [<-|[<-|[]]]; op_red; rewrite OA; reflexivity.
  - assert (W : w = 1 \/ w = 2 \/ w = 4 \/ w = 8) by (cbn in X; intuition (match goal with H : (_, _) = _ |- _ => injection H end; lia)).
    rewrite zlen_enc in E |- * by lia. assert (V64 : n mod two64 = n). { apply Z.mod_small. assert (256 ^ w <= 256 ^ 8) by (apply Z.pow_le_mono_r; lia). change (256 ^ 8) with two64 in *. lia. } rewrite V64.
    assert (F : w <> 1 -> (if e <? p + w then Err DWARF_E_INVALID_DWARF else rd (l_fle c) (l_mem c) p w) = Ok n).
    { intros _. apply (fixed_at c p e w n []); [lia|exact N|rewrite app_nil_r; exact A|rewrite app_nil_r, zlen_enc; lia]. }
    assert (F1 : w = 1 -> byte_at (l_mem c) p = Ok n). { intros ->. change (256 ^ 1) with 256 in N. rewrite one_byte in A by exact N. exact (byte_at_at _ _ _ _ A). }
    assert (SX : forall h m, h = 2 ^ (8 * w - 1) -> m = 256 ^ w -> n < h -> (n + h) mod m - h = n).
    { intros h m -> -> L. rewrite Z.mod_small; [lia|]. replace (256 ^ w) with (2 * 2 ^ (8 * w - 1)) by (destruct W as [->|[->|[->| ->]]]; reflexivity). lia. }
    cbn in X. repeat (destruct X as [X|X]; [injection X as <- <-|]); [..|destruct X]; op_red;
      try (rewrite F by lia; cbn [obind]; try reflexivity); try (replace (e <=? p) with false by lia; rewrite F1 by reflexivity; reflexivity).
    + specialize (U1 eq_refl n _ eq_refl). unfold s16. rewrite (SX 32768 two16) by (try reflexivity; lia). rewrite u64_small by lia. reflexivity.
    + specialize (U2 (or_introl eq_refl) n _ eq_refl). unfold s32. rewrite (SX two31 two32) by (try reflexivity; lia). rewrite u64_small by lia. reflexivity.
    + specialize (U2 (or_intror eq_refl) n _ eq_refl). unfold s32. rewrite (SX two31 two32) by (try reflexivity; lia). rewrite u64_small by lia. reflexivity.
  - assert (W : w = 1 \/ w = 2 \/ w = 4 \/ w = 8) by (cbn in X; intuition (match goal with H : (_, _) = _ |- _ => injection H end; lia)).
    rewrite zlen_enc in E |- * by lia. assert (NM : 0 <= n mod 256 ^ w < 256 ^ w) by (apply Z.mod_pos_bound; lia).
    pose proof (signed_read w n W N) as SG.
    assert (F : w <> 1 -> (if e <? p + w then Err DWARF_E_INVALID_DWARF else rd (l_fle c) (l_mem c) p w) = Ok (n mod 256 ^ w)).
    { intros _. apply (fixed_at c p e w _ []); [lia|exact NM|rewrite app_nil_r; exact A|rewrite app_nil_r, zlen_enc; lia]. }
    assert (F1 : w = 1 -> byte_at (l_mem c) p = Ok (n mod 256)). { intros ->. change (256 ^ 1) with 256 in *. rewrite one_byte in A by exact NM. exact (byte_at_at _ _ _ _ A). }
    cbn in X. repeat (destruct X as [X|X]; [injection X as <- <-|]); [..|destruct X]; op_red;
      try (replace (e <=? p) with false by lia; rewrite F1 by reflexivity; cbn [obind]); try (rewrite F by lia; cbn [obind]).
    + change (s8 (n mod 256)) with ((n mod 256 + 128) mod 256 - 128). change (256 ^ 1) with 256 in SG. change (2 ^ (8 * 1 - 1)) with 128 in SG. rewrite SG. reflexivity.
    + change (s16 (n mod 256 ^ 2)) with ((n mod 256 ^ 2 + 2 ^ (8 * 2 - 1)) mod 256 ^ 2 - 2 ^ (8 * 2 - 1)). rewrite SG. reflexivity.
    + change (s16 (n mod 256 ^ 2)) with ((n mod 256 ^ 2 + 2 ^ (8 * 2 - 1)) mod 256 ^ 2 - 2 ^ (8 * 2 - 1)). rewrite SG. reflexivity.
    + change (s16 (n mod 256 ^ 2)) with ((n mod 256 ^ 2 + 2 ^ (8 * 2 - 1)) mod 256 ^ 2 - 2 ^ (8 * 2 - 1)). rewrite SG. reflexivity.
    + change (s32 (n mod 256 ^ 4)) with ((n mod 256 ^ 4 + 2 ^ (8 * 4 - 1)) mod 256 ^ 4 - 2 ^ (8 * 4 - 1)). rewrite SG. reflexivity.
    + reflexivity.
  - pose proof (uleb_of_nonneg _ _ N). rewrite (Z.mod_small n) by (destruct N as (_ & _ & _ & N); lia).
    pose proof (uleb_at (l_mem c) p e n b N A E) as R. cbn in X. repeat (destruct X as [<-|X]); [..|destruct X]; op_red; rewrite R; reflexivity.
  - pose proof (sleb_at (l_mem c) p e n b N A E) as R. unfold operands.
    replace (x =? 3) with false by lia. replace (among [154; 253] x) with false by (unfold among; cbn [existsb]; lia).
    replace (no_operand x) with false by (unfold no_operand, in_range, among; cbn [existsb]; lia).
    replace (among [8; 21; 148; 149] x) with false by (unfold among; cbn [existsb]; lia). replace (x =? 9) with false by lia. replace (x =? 10) with false by lia.
    replace (among [11; 47; 40; 152] x) with false by (unfold among; cbn [existsb]; lia). replace (x =? 12) with false by lia.
    replace (among [13; 153; 250] x) with false by (unfold among; cbn [existsb]; lia). replace ((x =? 14) || (x =? 15)) with false by lia.
    replace (among [16; 35; 144; 147; 168; 247; 169; 249; 161; 251; 162; 252] x) with false by (unfold among; cbn [existsb]; lia).
    replace ((x =? 17) || in_range 112 143 x || (x =? 145)) with true by (unfold in_range; lia). rewrite R. reflexivity.
  - assert (D1 : l_dbg c = true) by (apply U4; cbn in X |- *; tauto). rewrite zlen_app in *. pose proof (zlen_nonneg _ b').
    pose proof (uleb_at (l_mem c) p e _ x' N (at_app1 _ _ _ _ A) ltac:(lia)) as R.
    pose proof (zlen_nonneg _ x').    assert (K : u64 (e - (p + zlen x')) <? zlen b' = false) by (rewrite u64_small; lia). assert (S6 : s64 (zlen b') = zlen b') by (unfold s64; rewrite Z.mod_small; lia).
    cbn in X. repeat (destruct X as [<-|X]); [..|destruct X]; op_red; rewrite D1; cbn [negb]; rewrite R; cbn [obind]; rewrite K, S6, Z.add_assoc; reflexivity.
Qed.
Lemma operands_two : forall c k k' x a b a' b' p e, sizes c -> two_ k k' x -> arg_bytes (env_of c) k a b -> arg_bytes (env_of c) k' a' b' -> usual c (Operation x [(a, b); (a', b')]) ->
  at_ (l_mem c) p (b ++ b') -> p + zlen (b ++ b') <= e -> e <= zlen (l_mem c) ->
  operands c x p e = Ok (numbers p [(a, b); (a', b')], p + zlen (b ++ b')).
Proof.
  intros c k k' x a b a' b' p e (SA & SR & SM) O B B' (U1 & U2 & U3 & U4 & U5) A E M. cbn [opcode args] in *. destruct (at_bound _ _ _ A) as [P0 _]. rewrite zlen_app in *. rewrite Z.add_assoc in *.
  pose proof (at_app1 _ _ _ _ A) as A1. pose proof (at_app2 _ _ _ _ A) as A2.
  destruct O as [|x X|x X|x X|x X]; inversion B as [n N|n N|w n N|w n N|n y N|n y N|y z N|z N]; inversion B' as [n' N'|n' N'|w' n' N'|w' n' N'|n' y' N'|n' y' N'|y' z' N'|z' N']; subst; cbn [numbers env_of e_le e_addr e_ref] in *.
  - pose proof (sleb_len _ _ N'). pose proof (uleb_of_nonneg _ _ N). rewrite (Z.mod_small n) by (destruct N as (_ & _ & _ & N); lia).
    op_red. rewrite (uleb_at (l_mem c) p e n b N A1) by lia. cbn [obind]. replace (e <=? p + zlen b) with false by lia. rewrite (sleb_at _ _ e n' b' N' A2) by lia. reflexivity.
  - pose proof (uleb_len _ _ N'). pose proof (uleb_of_nonneg _ _ N). pose proof (uleb_of_nonneg _ _ N'). rewrite (Z.mod_small n) by (destruct N as (_ & _ & _ & N); lia). rewrite (Z.mod_small n') by (destruct N' as (_ & _ & _ & N'); lia).
    pose proof (uleb_at (l_mem c) p e n b N A1 ltac:(lia)) as R1. pose proof (uleb_at (l_mem c) _ e n' b' N' A2 ltac:(lia)) as R2. assert (K : e <=? p + zlen b = false) by lia.
    cbn in X. repeat (destruct X as [<-|X]); [..|destruct X]; op_red; rewrite R1; cbn [obind]; rewrite K, R2; reflexivity.
  - pose proof (sleb_len _ _ N'). rewrite zlen_enc in * by lia. assert (V64 : n mod two64 = n). { apply Z.mod_small. assert (256 ^ l_rsize c <= 256 ^ 8) by (apply Z.pow_le_mono_r; lia). change (256 ^ 8) with two64 in *. lia. } rewrite V64.
    assert (D1 : l_dbg c = true) by (apply U4; cbn in X |- *; tauto). destruct (U5 ltac:(cbn in X |- *; tauto) n _ _ eq_refl) as (info & IN & LE).
    pose proof (offset_at c p n b' info SR N A D1 IN LE) as OA. pose proof (U3 ltac:(cbn in X; intuition congruence) _ n' b' eq_refl) as NN. pose proof (sleb_uleb _ _ N' NN) as UL.
    rewrite (Z.mod_small n') by (destruct UL as (_ & _ & _ & UL); lia).
    pose proof (uleb_at (l_mem c) _ e n' b' UL A2 ltac:(lia)) as R2. assert (K : e <=? p + l_rsize c = false) by lia.
    cbn in X. repeat (destruct X as [<-|X]); [..|destruct X]; op_red; rewrite OA; cbn [obind]; rewrite K, R2; reflexivity.
  - pose proof (uleb_len _ _ N'). change (256 ^ 1) with 256 in *. rewrite one_byte in * by exact N. change (zlen [n]) with 1 in *. pose proof (uleb_of_nonneg _ _ N').
    rewrite (Z.mod_small n) by lia. rewrite (Z.mod_small n') by (destruct N' as (_ & _ & _ & N'); lia).
    pose proof (byte_at_at _ _ _ _ A1) as R1. pose proof (uleb_at (l_mem c) _ e n' b' N' A2 ltac:(lia)) as R2. assert (K : e <=? p + 1 = false) by lia.
    cbn in X. repeat (destruct X as [<-|X]); [..|destruct X]; op_red; rewrite K, R1; cbn [obind]; rewrite R2; reflexivity.
  - pose proof (uleb_of_nonneg _ _ N). rewrite (Z.mod_small n) by (destruct N as (_ & _ & _ & N); lia). rewrite zlen_cons in *. pose proof (zlen_nonneg _ z'). pose proof (zlen_nonneg _ b).
    pose proof (uleb_at (l_mem c) p e n b N A1 ltac:(lia)) as R1. pose proof (byte_at_at _ _ _ _ A2) as R2. assert (K : e <=? p + zlen b = false) by lia.
    assert (K2 : u64 (e - (p + zlen b + 1)) <? zlen z' = false) by (rewrite u64_small; lia). rewrite Z.add_assoc.
    cbn in X. repeat (destruct X as [<-|X]); [..|destruct X]; op_red; rewrite R1; cbn [obind]; rewrite K, R2; cbn [obind]; rewrite K2; reflexivity.
Qed.
Lemma operands_ok : forall c o p e, sizes c -> op_ok (env_of c) o -> usual c o -> at_ (l_mem c) p (op_bytes o) -> p + zlen (op_bytes o) <= e -> e <= zlen (l_mem c) ->
  operands c (opcode o) (p + 1) e = Ok (numbers (p + 1) (args o), p + zlen (op_bytes o)) /\ znth (l_mem c) p = Some (opcode o) /\ 0 < zlen (op_bytes o).
Proof.
  intros c [x l] p e SZ (ks & SG & AB) U A E M. unfold op_bytes in *. cbn [opcode args] in *. rewrite zlen_cons in E |- *. pose proof (zlen_nonneg _ (concat (map snd l))).
  assert (X : znth (l_mem c) p = Some x). { pose proof (byte_at_at _ _ _ _ A) as BA. unfold byte_at in BA. destruct (znth (l_mem c) p); congruence. }
  split; [|split; [exact X|lia]]. apply at_shift in A. rewrite Z.add_assoc.
  destruct (shapes _ _ SG) as [[-> N]|[(k & -> & O)|(k & k' & -> & O)]].
  - inversion AB; subst. cbn [map concat numbers] in *. change (zlen []) with 0. rewrite Z.add_0_r. apply operands_none, N.
  - inversion AB as [|k0 a b ks0 l0 B AB']; subst. inversion AB'; subst. cbn [map concat snd] in *. rewrite app_nil_r in *. apply (operands_one c k x a b); try assumption. lia.
  - inversion AB as [|k0 a b ks0 l0 B AB']; subst. inversion AB' as [|k1 a' b' ks1 l1 B' AB2]; subst. inversion AB2; subst. cbn [map concat snd] in *. rewrite app_nil_r in *. apply (operands_two c k k' x a b a' b'); try assumption. lia.
Qed.

(* What dwarf_getlocation should deliver for the operations of an expression at place p. *)
Fixpoint ops_of (start p : Z) (l : list operation) : list op :=
  match l with
  | [] => []
  | o :: r => Op (opcode o) (fst (numbers (p + 1) (args o))) (snd (numbers (p + 1) (args o))) (p - start) :: ops_of start (p + zlen (op_bytes o)) r
  end.
Lemma decode_ok : forall c l start p fuel, sizes c -> Forall (op_ok (env_of c)) l -> Forall (usual c) l -> at_ (l_mem c) p (expr_bytes l) -> (length l < fuel)%nat ->
  ops_from fuel c start p (p + zlen (expr_bytes l)) = Ok (ops_of start p l, p + zlen (expr_bytes l)).
Proof.
  intros c l start p fuel SZ O U A F. assert (G : exists e, e = p + zlen (expr_bytes l)) by (eexists; reflexivity). destruct G as [e EE]. rewrite <- EE.
  revert p fuel O U A F EE. induction l as [|o l IH]; intros p fuel O U A F EE; (destruct fuel as [|k]; [cbn in F; lia|]); cbn [ops_from ops_of].
  - cbn in EE. replace (e <=? p) with true by lia. rewrite EE, Z.add_0_r. reflexivity.
  - unfold expr_bytes in A, EE. cbn [map concat] in A, EE. fold (expr_bytes l) in A, EE. rewrite zlen_app in EE. pose proof (zlen_nonneg _ (expr_bytes l)). destruct (at_bound _ _ _ A) as [B0 B1]. rewrite zlen_app in B1.
    destruct (operands_ok c o p e SZ (Forall_inv O) (Forall_inv U) (at_app1 _ _ _ _ A) ltac:(lia) ltac:(lia)) as (R & X & L). replace (e <=? p) with false by lia.
    unfold byte_at. rewrite X. cbn [obind]. rewrite R. cbn [invalid obind]. destruct (numbers (p + 1) (args o)) as [v w]. cbn [fst snd].
    rewrite (IH (p + zlen (op_bytes o)) k (Forall_inv_tail O) (Forall_inv_tail U) (at_app2 _ _ _ _ A)) by (cbn in F; lia). reflexivity.
Qed.

(* Values of DW_OP_implicit_value. *)
Lemma store_app : forall c id l idx vals, store_values c id idx l vals = match store_values c id idx l [] with Ok vs => Ok (vs ++ vals) | Err n => Err n | UB => UB | Fuel => Fuel end.
Proof.
  induction l as [|o l IH]; intros idx vals; cbn [store_values]; [reflexivity|]. rewrite (IH (S idx) vals), (IH (S idx) []). destruct (store_values c id (S idx) l []) as [vs|n| |]; cbn [obind]; try reflexivity.
  rewrite app_nil_r. destruct (o_atom o =? 158); [|reflexivity]. destruct (get_uleb128 (l_mem c) (o_num2 o) (o_num2 o + 10)) as [[len q]|n| |]; cbn [obind]; try reflexivity. destruct (negb (len =? o_num o)); reflexivity.
Qed.
Definition find_val (vals : list (nat * nat * (Z * Z))) (id idx : nat) : option (Z * Z) := option_map snd (find (fun e => Nat.eqb (fst (fst e)) id && Nat.eqb (snd (fst e)) idx) vals).
Lemma implicit_find : forall t id idx, implicit_value t id idx = match find_val (t_vals t) id idx with Some b => Ok b | None => Err DWARF_E_NO_BLOCK end.
Proof. intros t id idx. unfold implicit_value, find_val. destruct (find _ (t_vals t)) as [[k b]|]; reflexivity. Qed.
Lemma find_val_app : forall a b id idx, find_val (a ++ b) id idx = match find_val a id idx with Some v => Some v | None => find_val b id idx end.
Proof.
  unfold find_val. induction a as [|[k v] a IH]; intros b id idx; cbn [app find]; [reflexivity|]. destruct (Nat.eqb (fst (fst (k, v))) id && Nat.eqb (snd (fst (k, v))) idx); [reflexivity|apply IH].
Qed.
Lemma find_val_none : forall vals id idx, Forall (fun e => fst (fst e) <> id) vals -> find_val vals id idx = None.
Proof.
  unfold find_val. induction vals as [|[k v] r IH]; intros id idx H; [reflexivity|]. cbn [find fst]. replace (Nat.eqb (fst k) id) with false; [apply IH, (Forall_inv_tail H)|]. symmetry. apply Nat.eqb_neq. exact (Forall_inv H).
Qed.
Lemma store_keys : forall c id l idx vs, store_values c id idx l [] = Ok vs -> Forall (fun e => fst (fst e) = id /\ (idx <= snd (fst e))%nat) vs.
Proof.
  induction l as [|o l IH]; intros idx vs H; cbn [store_values] in H; [injection H as <-; constructor|]. destruct (store_values c id (S idx) l []) as [vs'|n| |] eqn:E; cbn [obind] in H; try discriminate.
  assert (W : Forall (fun e => fst (fst e) = id /\ (idx <= snd (fst e))%nat) vs') by (eapply Forall_impl; [|exact (IH _ _ E)]; cbn; intros e [A B]; split; [exact A|lia]).
  destruct (o_atom o =? 158); [|injection H as <-; exact W]. destruct (get_uleb128 (l_mem c) (o_num2 o) (o_num2 o + 10)) as [[len q]|n| |]; cbn [obind] in H; try discriminate. destruct (negb (len =? o_num o)); [discriminate|]. injection H as <-. constructor; [cbn; split; [reflexivity|lia]|exact W].
Qed.
Lemma store_lift : forall c id o idx r vs, o_atom o <> 158 -> store_values c id idx (o :: r) vs = store_values c id (S idx) r vs.
Proof. intros c id o idx r vs N. cbn [store_values]. replace (o_atom o =? 158) with false by lia. destruct (store_values c id (S idx) r vs); reflexivity. Qed.
Lemma sig158 : forall m o, op_ok m o -> opcode o = 158 -> exists b x, args o = [(Blk b, x ++ b)] /\ uleb_of (zlen b) x.
Proof.
  intros m [x l] (ks & SG & AB) E. cbn [opcode args] in *. subst x. destruct (shapes _ _ SG) as [[-> N]|[(k & -> & O)|(k & k' & -> & O)]].
  - discriminate.
  - inversion O as [| x X| w x X| w x X|x X|x X|x X]; subst; try (cbn in X; intuition discriminate); try (cbn in X; intuition (match goal with H : (_, _) = _ |- _ => discriminate H end)); try lia.
    inversion AB as [|k0 a b ks0 l0 B AB']; subst. inversion AB'; subst. inversion B; subst. eexists _, _. split; [reflexivity|assumption].
  - inversion O as [|x X|x X|x X|x X]; subst; cbn in X; intuition discriminate.
Qed.
Lemma store_ok : forall c id l start p idx rest, sizes c -> Forall (op_ok (env_of c)) l -> at_ (l_mem c) p (expr_bytes l) -> store_values c id (idx + length l)%nat rest [] = Ok [] ->
  exists vs, store_values c id idx (ops_of start p l ++ rest) [] = Ok vs /\
    forall i o b x, nth_error l i = Some o -> opcode o = 158 -> args o = [(Blk b, x)] -> exists q, find_val vs id (idx + i) = Some (q, zlen b) /\ at_ (l_mem c) q b.
Proof.
  induction l as [|o l IH]; intros start p idx rest SZ O A RS; cbn [ops_of app].
  - cbn [length] in RS. rewrite Nat.add_0_r in RS. exists []. split; [exact RS|]. intros [|i] o b x H; discriminate.
  - unfold expr_bytes in A. cbn [map concat] in A. fold (expr_bytes l) in A.
    destruct (IH start (p + zlen (op_bytes o)) (S idx) rest SZ (Forall_inv_tail O) (at_app2 _ _ _ _ A)) as (vs & E & G). { replace (S idx + length l)%nat with (idx + length (o :: l))%nat by (cbn; lia). exact RS. }
    cbn [store_values]. rewrite E. cbn [obind o_atom o_num o_num2].
    destruct (Z.eqb_spec (opcode o) 158) as [E158|N158].
    + destruct (sig158 _ _ (Forall_inv O) E158) as (b & x & AR & UL). pose proof (at_app1 _ _ _ _ A) as AO. unfold op_bytes in AO. rewrite AR in AO |- *. cbn [map concat snd numbers fst] in AO |- *. rewrite app_nil_r in AO. apply at_shift in AO.
      rewrite (uleb_at (l_mem c) (p + 1) (p + 1 + 10) _ x UL (at_app1 _ _ _ _ AO)) by (destruct UL as (_ & LX & _); lia). cbn [obind]. rewrite Z.eqb_refl. cbn [negb].
      eexists. split; [reflexivity|]. intros [|i] o' b' x' H E' AR'.
      * cbn in H. injection H as <-. rewrite AR in AR'. injection AR' as <- <-. exists (p + 1 + zlen x). unfold find_val. cbn [find fst snd]. rewrite Nat.add_0_r, !Nat.eqb_refl. cbn. split; [reflexivity|exact (at_app2 _ _ _ _ AO)].
      * cbn in H. destruct (G i o' b' x' H E' AR') as (q & F & AQ). exists q. split; [|exact AQ]. unfold find_val in *. cbn [find fst snd]. replace (Nat.eqb idx (idx + S i)) with false by (symmetry; apply Nat.eqb_neq; lia). rewrite andb_false_r. replace (idx + S i)%nat with (S idx + i)%nat by lia. exact F.
    + exists vs. split; [reflexivity|]. intros [|i] o' b' x' H E' AR'; cbn in H; [injection H as <-; contradiction|]. destruct (G i o' b' x' H E' AR') as (q & F & AQ). exists q. split; [|exact AQ]. rewrite <- F. f_equal. lia.
Qed.

(* The operations delivered: with DW_OP_call_frame_cfa before them or DW_OP_stack_value after
   them for the expressions of call frame information. *)
Definition delivered (p len : Z) (cfap valuep : bool) (l : list operation) : list op :=
  (if cfap then [Op 156 0 0 (two64 - 1)] else []) ++ ops_of p p l ++ (if valuep then [Op 159 0 0 len] else []).
Definition values_kept (c : loc) (t : tree_) (id : nat) (cfap : bool) (l : list operation) : Prop :=
  forall i o b x, nth_error l i = Some o -> opcode o = 158 -> args o = [(Blk b, x)] ->
    exists q, implicit_value t id ((if cfap then 1 else 0) + i) = Ok (q, zlen b) /\ at_ (l_mem c) q b.

Lemma len_ops : forall start l p, length (ops_of start p l) = length l.
Proof. intros start l. induction l as [|o l IH]; intro p; cbn; [reflexivity|]. rewrite IH. reflexivity. Qed.
Lemma op_len : forall l, (length l <= length (expr_bytes l))%nat.
Proof. induction l as [|o l IH]; [cbn; lia|]. unfold expr_bytes. cbn [map concat]. fold (expr_bytes l). rewrite app_length. unfold op_bytes at 1. cbn [length]. lia. Qed.
Lemma store_delivered : forall c id l p len cfap valuep, sizes c -> Forall (op_ok (env_of c)) l -> at_ (l_mem c) p (expr_bytes l) ->
  exists vs, store_values c id 0 (delivered p len cfap valuep l) [] = Ok vs /\
    forall i o b x, nth_error l i = Some o -> opcode o = 158 -> args o = [(Blk b, x)] -> exists q, find_val vs id ((if cfap then 1 else 0) + i) = Some (q, zlen b) /\ at_ (l_mem c) q b.
Proof.
  intros c id l p len cfap valuep SZ O A. unfold delivered.
  assert (RS : forall n, store_values c id n (if valuep then [Op 159 0 0 len] else []) [] = Ok []) by (intro n; destruct valuep; reflexivity).
  destruct cfap; cbn [app].
  - rewrite store_lift by (cbn; lia). exact (store_ok c id l p p 1 _ SZ O A (RS _)).
  - exact (store_ok c id l p p 0 _ SZ O A (RS _)).
Qed.
Definition fresh (c : loc) (p len : Z) (cfap valuep : bool) : outcome (list op) :=
  ' (l, z) <- ops_from (S (length (l_mem c))) c p p (p + len) ;;
  Ok ((if cfap then [Op OP_call_frame_cfa 0 0 (two64 - 1)] else []) ++ l ++ (if valuep then [Op OP_stack_value 0 0 (z - p)] else [])).
Lemma fresh_ok : forall c p l cfap valuep, sizes c -> Forall (op_ok (env_of c)) l -> Forall (usual c) l -> at_ (l_mem c) p (expr_bytes l) ->
  fresh c p (zlen (expr_bytes l)) cfap valuep = Ok (delivered p (zlen (expr_bytes l)) cfap valuep l).
Proof.
  intros c p l cfap valuep SZ O U A. unfold fresh. destruct (at_bound _ _ _ A) as [B0 B1]. pose proof (op_len l). rewrite (decode_ok c l p p _ SZ O U A) by (unfold zlen in *; lia). cbn [obind].
  unfold delivered. replace (p + zlen (expr_bytes l) - p) with (zlen (expr_bytes l)) by lia. reflexivity.
Qed.
Lemma intern_fresh : forall c t p len cfap valuep, len <> 0 -> find_loc t p = None -> intern c t p len cfap valuep =
  (l <- fresh c p len cfap valuep ;; vals <- store_values c (t_next t) O l (t_vals t) ;; Ok (Some (t_next t, l), Tree (S (t_next t)) ((p, (t_next t, l)) :: t_locs t) vals)).
Proof.
  intros c t p len cfap valuep N F. unfold intern, fresh. replace (len =? 0) with false by lia. rewrite F. destruct (ops_from (S (length (l_mem c))) c p p (p + len)) as [[l z]|n| |]; reflexivity.
Qed.

(* C42: an expression is decoded into its operations, with operands and offsets; the values of
   DW_OP_implicit_value can be fetched. *)
Theorem C42_decode_partial : forall c t p l cfap valuep, sizes c -> l <> [] -> Forall (op_ok (env_of c)) l -> Forall (usual c) l -> at_ (l_mem c) p (expr_bytes l) -> find_loc t p = None ->
  exists t', intern c t p (zlen (expr_bytes l)) cfap valuep = Ok (Some (t_next t, delivered p (zlen (expr_bytes l)) cfap valuep l), t') /\ values_kept c t' (t_next t) cfap l.
Proof.
  intros c t p l cfap valuep SZ NE O U A F. pose proof (op_len l) as OL. assert (N0 : zlen (expr_bytes l) <> 0) by (destruct l; [congruence|]; unfold zlen; cbn [length] in OL; lia).
  rewrite intern_fresh by assumption. rewrite fresh_ok by assumption. cbn [obind]. destruct (store_delivered c (t_next t) l p (zlen (expr_bytes l)) cfap valuep SZ O A) as (vs & S1 & S2).
  rewrite store_app, S1. cbn [obind]. eexists. split; [reflexivity|]. intros i o b x NI E AR. destruct (S2 i o b x NI E AR) as (q & FV & AQ). exists q. split; [|exact AQ].
  rewrite implicit_find. cbn [t_vals]. rewrite find_val_app, FV. reflexivity.
Qed.
Print Assumptions C42_decode_partial.
Theorem C42_empty : forall c t p cfap valuep, intern c t p 0 cfap valuep = Ok (None, t).
Proof. reflexivity. Qed.
Print Assumptions C42_empty.

(* Histories: requests made of a unit before. *)
Inductive history (c : loc) : list (Z * Z * bool * bool) -> tree_ -> Prop :=
  | Hi_start : history c [] tree0
  | Hi_next : forall rs t p len cfap valuep r t', history c rs t -> intern c t p len cfap valuep = Ok (r, t') -> history c ((p, len, cfap, valuep) :: rs) t'.
Definition entry_ok (c : loc) (rs : list (Z * Z * bool * bool)) (t : tree_) (e : Z * (nat * list op)) : Prop :=
  let '(p, (id, l)) := e in (id < t_next t)%nat /\ exists len cfap valuep vs, In (p, len, cfap, valuep) rs /\ len <> 0 /\ fresh c p len cfap valuep = Ok l /\
    store_values c id O l [] = Ok vs /\ forall idx, find_val (t_vals t) id idx = find_val vs id idx.
Lemma find_loc_in : forall t p r, find_loc t p = Some r -> In (p, r) (t_locs t).
Proof.
  intros t p r H. unfold find_loc in H. destruct (find (fun e => fst e =? p) (t_locs t)) as [[q r']|] eqn:E; [|discriminate]. cbn in H. injection H as <-. apply find_some in E as [I E]. cbn in E. apply Z.eqb_eq in E. subst q. exact I.
Qed.
Lemma history_inv : forall c rs t, history c rs t -> Forall (entry_ok c rs t) (t_locs t) /\ Forall (fun e => (fst (fst e) < t_next t)%nat) (t_vals t).
Proof.
  intros c rs t H. induction H as [|rs t p len cfap valuep r t' H [IH1 IH2] E]; [split; constructor|].
  assert (KEEP : Forall (entry_ok c ((p, len, cfap, valuep) :: rs) t) (t_locs t)).
  { eapply Forall_impl; [|exact IH1]. intros [p0 [id l]] (L & len0 & cf0 & vp0 & vs & I & R). split; [exact L|]. exists len0, cf0, vp0, vs. split; [right; exact I|exact R]. }
  destruct (Z.eq_dec len 0) as [->|N]; [cbn in E; injection E as <- <-; split; assumption|].
  destruct (find_loc t p) as [[id l]|] eqn:F.
  - unfold intern in E. replace (len =? 0) with false in E by lia. rewrite F in E. match type of E with (if ?b then _ else _) = _ => destruct b end; [discriminate|]. injection E as <- <-. split; assumption.
  - rewrite intern_fresh in E by assumption. destruct (fresh c p len cfap valuep) as [l|n| |] eqn:FR; cbn [obind] in E; try discriminate. rewrite store_app in E.
    destruct (store_values c (t_next t) 0 l []) as [vs|n| |] eqn:ST; cbn [obind] in E; try discriminate. injection E as <- <-. cbn [t_locs t_vals t_next]. pose proof (store_keys _ _ _ _ _ ST) as SK.
    split.
    + constructor.
      * split; [cbn; lia|]. exists len, cfap, valuep, vs. split; [left; reflexivity|]. split; [exact N|]. split; [exact FR|]. split; [exact ST|]. intro idx. cbn [t_vals]. rewrite find_val_app. destruct (find_val vs (t_next t) idx); [reflexivity|].
        apply find_val_none. eapply Forall_impl; [|exact IH2]. cbn. intros e L. lia.
      * eapply Forall_impl; [|exact KEEP]. intros [p0 [id l0]] (L & len0 & cf0 & vp0 & vs0 & I & NZ & FR0 & ST0 & FV). split; [cbn; lia|]. exists len0, cf0, vp0, vs0. repeat (split; [assumption|]). intro idx. cbn [t_vals]. rewrite find_val_app.
        rewrite (find_val_none vs id idx); [apply FV|]. eapply Forall_impl; [|exact SK]. cbn. intros e [E1 _]. lia.
    + apply Forall_app. split; [eapply Forall_impl; [|exact SK]; cbn; intros e [E1 _]; lia|eapply Forall_impl; [|exact IH2]; cbn; intros e L; lia].
Qed.

(* Whatever was decoded before, an expression is delivered as above, provided that earlier
   requests for the same place were for the same expression. *)
Theorem C42_history_partial : forall c rs t p l cfap valuep, sizes c -> history c rs t -> l <> [] -> Forall (op_ok (env_of c)) l -> Forall (usual c) l -> at_ (l_mem c) p (expr_bytes l) ->
  (forall len cf vp, In (p, len, cf, vp) rs -> len <> 0 -> len = zlen (expr_bytes l) /\ cf = cfap /\ vp = valuep) ->
  exists id t', intern c t p (zlen (expr_bytes l)) cfap valuep = Ok (Some (id, delivered p (zlen (expr_bytes l)) cfap valuep l), t') /\ values_kept c t' id cfap l.
Proof.
  intros c rs t p l cfap valuep SZ H NE O U A CO. destruct (find_loc t p) as [[id l']|] eqn:F.
  - pose proof (op_len l) as OL. assert (N0 : zlen (expr_bytes l) <> 0) by (destruct l; [congruence|]; unfold zlen; cbn [length] in OL; lia).
    destruct (history_inv c rs t H) as [INV _]. pose proof (proj1 (Forall_forall _ _) INV _ (find_loc_in _ _ _ F)) as (_ & len & cf & vp & vs & I & NZ & FR & ST & FV).
    destruct (CO len cf vp I NZ) as (-> & -> & ->). rewrite fresh_ok in FR by assumption. injection FR as <-.
    exists id, t. unfold intern. replace (zlen (expr_bytes l) =? 0) with false by lia. rewrite F. split.
    + destruct valuep; [|reflexivity]. cbn [andb]. match goal with |- (if negb (_ && ?x) then _ else _) = _ => assert (E1 : x = true) end.
      { unfold delivered. rewrite app_assoc. rewrite zlen_app. change (zlen [Op 159 0 0 (zlen (expr_bytes l))]) with 1. rewrite znth_app_r by lia.
        replace (_ + 1 - 1 - _) with 0 by lia. reflexivity. }
      rewrite E1. assert (E2 : 1 <? zlen (delivered p (zlen (expr_bytes l)) cfap true l) = true).
      { unfold delivered. rewrite !zlen_app. pose proof (len_ops p l p) as LO. change (zlen [Op 159 0 0 (zlen (expr_bytes l))]) with 1. assert (0 < zlen (ops_of p p l)) by (unfold zlen; rewrite LO; destruct l; [congruence|cbn [length]; lia]).
        match goal with |- (1 <? zlen ?x + _) = _ => pose proof (zlen_nonneg _ x) end. lia. }
      rewrite E2. reflexivity.
    + destruct (store_delivered c id l p (zlen (expr_bytes l)) cfap valuep SZ O A) as (vs' & S1 & S2). assert (vs' = vs) as -> by congruence.
      intros i o b x NI E AR. destruct (S2 i o b x NI E AR) as (q & FV' & AQ). exists q. split; [|exact AQ]. rewrite implicit_find, FV, FV'. reflexivity.
  - destruct (C42_decode_partial c t p l cfap valuep SZ NE O U A F) as (t' & E & V). exists (t_next t), t'. split; assumption.
Qed.
Print Assumptions C42_history_partial.
(* A delivered array stays what it is, and its values can be fetched ever after. *)
Theorem C42_stable : forall c rs t p len cfap valuep r t', history c rs t -> intern c t p len cfap valuep = Ok (r, t') ->
  (forall q x, find_loc t q = Some x -> find_loc t' q = Some x) /\
  (forall id idx b, (id < t_next t)%nat -> implicit_value t id idx = Ok b -> implicit_value t' id idx = Ok b).
Proof.
  intros c rs t p len cfap valuep r t' H E.
  destruct (Z.eq_dec len 0) as [->|N]; [cbn in E; injection E as <- <-; split; auto|].
  destruct (find_loc t p) as [[id l]|] eqn:F.
  - unfold intern in E. replace (len =? 0) with false in E by lia. rewrite F in E. match type of E with (if ?b then _ else _) = _ => destruct b end; [discriminate|]. injection E as <- <-. split; auto.
  - rewrite intern_fresh in E by assumption. destruct (fresh c p len cfap valuep) as [l|n| |] eqn:FR; cbn [obind] in E; try discriminate. rewrite store_app in E.
    destruct (store_values c (t_next t) 0 l []) as [vs|n| |] eqn:ST; cbn [obind] in E; try discriminate. injection E as <- <-. split.
    + intros q x Q. unfold find_loc in *. cbn [t_locs find fst]. destruct (Z.eqb_spec p q) as [->|NQ]; [congruence|exact Q].
    + intros id idx b L. rewrite !implicit_find. cbn [t_vals]. rewrite find_val_app. rewrite (find_val_none vs); [auto|]. eapply Forall_impl; [|exact (store_keys _ _ _ _ _ ST)]. cbn. intros e [E1 _]. lia.
Qed.
Print Assumptions C42_stable.

(* Any bytes at all. *)
Definition settled_op (p : Z) (r : Z * Z * Z) : Prop := let '(_, w, q) := r in p <= q.
Lemma byte_safe : forall mem p, 0 <= p < zlen mem -> safe (byte_at mem p) (fun _ => True).
Proof. intros mem p P. unfold byte_at. destruct (Base.znth_in _ mem p P) as [x ->]. exact Logic.I. Qed.
Lemma byte_nonneg : forall mem p, bytes_ok mem -> 0 <= p < zlen mem -> safe (byte_at mem p) (fun v => 0 <= v < 256).
Proof. intros mem p B P. unfold byte_at. destruct (Base.znth_in _ mem p P) as [x E]. rewrite E. cbn. exact (znth_Forall _ _ _ _ _ B E). Qed.
Definition placed (x p : Z) (r : Z * Z * Z) : Prop := let '(_, w, q) := r in p <= q /\ (x = 158 -> w = p).
Lemma operands_safe : forall c x p e, sizes c -> bytes_ok (l_mem c) -> 0 <= p <= e -> e < zlen (l_mem c) -> safe (operands c x p e) (placed x p).
Proof.
  intros c x p e (A & R & M) B P E.
  assert (FX : forall w, 0 <= w -> safe (if e <? p + w then Err DWARF_E_INVALID_DWARF else rd (l_fle c) (l_mem c) p w) (fun _ => True)) by (intros w W; destruct (e <? p + w) eqn:Q; [exact Logic.I|apply rd_safe; lia]).
  assert (UL : forall a, p <= a <= e -> safe (get_uleb128 (l_mem c) a e) (fun r => a < snd r /\ 0 <= fst r < two64 /\ (a < e -> snd r <= e) /\ (e <= a -> snd r = a + 1 /\ (fst r < 128 \/ fst r = two64 - 1)))).
  { intros a HA. destruct (uleb_any (l_mem c) a e B ltac:(lia) ltac:(lia)) as (v & q & -> & V & Q & Q1 & Q2). cbn. auto. }
  assert (SL : forall a, p <= a <= e -> safe (get_sleb128 (l_mem c) a e) (fun r => a < snd r)).
  { intros a HA. destruct (sleb_any (l_mem c) a e B ltac:(lia) ltac:(lia)) as (v & q & -> & Q & _). exact Q. }
  assert (AD : safe (loc_address c p) (fun r => p <= snd r)).
  { unfold loc_address. destruct (ArangeProps.read_address_cases (l_fle c) (l_mem c) p (l_asize c) A) as [(v & -> & _)| ->]; cbn; [lia|exact Logic.I]. }
  assert (OF : safe (loc_offset c p) (fun r => p <= snd r)).
  { unfold loc_offset. destruct (l_dbg c); [|exact Logic.I]. destruct (ArangeProps.read_offset_cases (l_fle c) (l_mem c) p (l_rsize c) (l_info c) 0 R) as [(v & -> & _)|(n & ->)]; cbn; [lia|exact Logic.I]. }
  unfold operands.
  destruct (x =? 3) eqn:X3. { destruct (l_dbg c); [eapply safe_bind; [exact AD|]; intros [v q] Q; cbn in *; lia|]. destruct (l_asize c =? 4); (eapply safe_bind; [apply FX; lia|]; intros v _; cbn; lia). }
  destruct (among [154; 253] x) eqn:X4. { eapply safe_bind; [exact OF|]. intros [v q] Q. cbn in *. split; [exact Q|]. intros ->. discriminate. }
  destruct (no_operand x) eqn:X5. { cbn. split; [lia|]. intros ->. discriminate. }
  destruct (among [8; 21; 148; 149] x) eqn:X6. { destruct (e <=? p) eqn:L; [exact Logic.I|]. eapply safe_bind; [apply byte_safe; lia|]. intros v _. cbn. split; [lia|]. intros ->. discriminate. }
  destruct (x =? 9) eqn:X7. { destruct (e <=? p) eqn:L; [exact Logic.I|]. eapply safe_bind; [apply byte_safe; lia|]. intros v _. cbn. lia. }
  destruct (x =? 10) eqn:X8. { eapply safe_bind; [apply FX; lia|]. intros v _. cbn. lia. }
  destruct (among [11; 47; 40; 152] x) eqn:X9. { eapply safe_bind; [apply FX; lia|]. intros v _. cbn. split; [lia|]. intros ->. discriminate. }
  destruct (x =? 12) eqn:X10. { eapply safe_bind; [apply FX; lia|]. intros v _. cbn. lia. }
  destruct (among [13; 153; 250] x) eqn:X11. { eapply safe_bind; [apply FX; lia|]. intros v _. cbn. split; [lia|]. intros ->. discriminate. }
  destruct ((x =? 14) || (x =? 15)) eqn:X12. { eapply safe_bind; [apply FX; lia|]. intros v _. cbn. lia. }
  destruct (among [16; 35; 144; 147; 168; 247; 169; 249; 161; 251; 162; 252] x) eqn:X13. { eapply safe_bind; [apply UL; lia|]. intros [v q] Q. cbn in Q |- *. split; [lia|]. intros ->. discriminate. }
  destruct ((x =? 17) || in_range 112 143 x || (x =? 145)) eqn:X14. { eapply safe_bind; [apply SL; lia|]. intros [v q] Q. cbn in Q |- *. split; [lia|]. intros ->. discriminate. }
  destruct (x =? 146) eqn:X15. { eapply safe_bind; [apply UL; lia|]. intros [v q] Q. cbn in Q. destruct (e <=? q) eqn:L; [exact Logic.I|]. assert (QE : p <= q <= e) by (clear - Q L; lia). eapply safe_bind; [apply SL; lia|]. intros [w q'] Q'. cbn in Q' |- *. lia. }
  destruct (among [157; 165; 245] x) eqn:X16. { eapply safe_bind; [apply UL; clear - P; lia|]. intros [v q] Q. cbn in Q. destruct (e <=? q) eqn:L; [exact Logic.I|]. assert (QE : p <= q <= e) by (clear - Q L; lia). eapply safe_bind; [apply UL; exact QE|]. intros [w q'] Q'. cbn in Q' |- *. split; [clear - Q' QE; lia|]. intros ->. discriminate. }
  destruct (among [158; 163; 243] x) eqn:X17.
  { destruct (l_dbg c); cbn [negb]; [|exact Logic.I]. eapply safe_bind; [apply UL; lia|]. intros [v q] (Q0 & Q1 & Q2 & Q3). cbn [fst snd] in *. destruct (u64 (e - q) <? v) eqn:L; [exact Logic.I|]. cbn. split; [|reflexivity].
    destruct (Z_lt_le_dec p e) as [PE|PE].
    - specialize (Q2 PE). rewrite u64_small in L by lia. rewrite s64_small by lia. lia.
    - destruct (Q3 PE) as [-> [V|V]]; [rewrite s64_small by lia; lia|]. subst v. assert (X : s64 (two64 - 1) = -1) by reflexivity. rewrite X. lia. }
  destruct (among [160; 242] x) eqn:X18. { eapply safe_bind; [exact OF|]. intros [v q] Q. cbn in Q. destruct (e <=? q) eqn:L; [exact Logic.I|]. assert (QE : p <= q <= e) by (clear - Q L; lia). eapply safe_bind; [apply UL; exact QE|]. intros [w q'] Q'. cbn in Q' |- *. split; [clear - Q' QE; lia|]. intros ->. discriminate. }
  destruct (among [166; 246; 167] x) eqn:X19. { destruct (e <=? p + 1) eqn:L; [exact Logic.I|]. eapply safe_bind; [apply byte_safe; clear - L P E; lia|]. intros v _. eapply safe_bind; [apply UL; clear - L P; lia|]. intros [w q'] Q'. cbn in Q' |- *. split; [clear - Q'; lia|]. intros ->. discriminate. }
  destruct (among [164; 244] x) eqn:X20; [|exact Logic.I].
  eapply safe_bind; [apply UL; clear - P; lia|]. intros [v q] Q. cbn in Q. destruct (e <=? q) eqn:L; [exact Logic.I|]. assert (QE : p <= q <= e) by (clear - Q L; lia). eapply safe_bind; [apply byte_nonneg; [exact B|clear - QE L P E; lia]|]. intros n N. cbn beta.
  destruct (u64 (e - (q + 1)) <? n); [exact Logic.I|]. cbn in N |- *. split; [clear - QE N; lia|]. intros ->. discriminate.
Qed.

(* What is said of the operations found in a block: they begin inside it, one after the other,
   each with the opcode found at its offset. *)
Definition laid_out (c : loc) (p e : Z) (l : list op) : Prop :=
  Forall (fun o => 0 <= o_off o < e - p /\ znth (l_mem c) (p + o_off o) = Some (o_atom o)) l /\
  StronglySorted (fun a b => o_off a < o_off b) l.
Definition reread (e : Z) (l : list op) : Prop := Forall (fun o => o_atom o = 158 -> 0 <= o_num2 o <= e) l.
Lemma ops_safe : forall c start e, sizes c -> bytes_ok (l_mem c) -> 0 <= start -> e < zlen (l_mem c) ->
  forall k p, start <= p -> (0 < k)%nat -> e - p < Z.of_nat k -> safe (ops_from k c start p e) (fun r =>
    Forall (fun o => p - start <= o_off o < e - start /\ znth (l_mem c) (start + o_off o) = Some (o_atom o)) (fst r) /\
    StronglySorted (fun a b => o_off a < o_off b) (fst r) /\ reread e (fst r) /\ p <= snd r /\
    match fst r with o :: _ => o_off o = p - start | [] => e <= p end).
Proof.
  intros c start e SZ B S0 E. induction k as [|k IH]; intros p P K0 K; [lia|]. cbn [ops_from]. destruct (e <=? p) eqn:L; [cbn; repeat split; try constructor; lia|].
  unfold byte_at at 1. destruct (Base.znth_in _ (l_mem c) p ltac:(lia)) as [x X]. rewrite X. cbn [obind].
  pose proof (operands_safe c x (p + 1) e SZ B ltac:(lia) E) as OS. destruct (operands c x (p + 1) e) as [[[v w] q]|n| |]; cbn [invalid obind]; try exact Logic.I; try contradiction. cbn in OS. destruct OS as [Q W].
  specialize (IH q ltac:(lia)). destruct k as [|k].
  { lia. }
  specialize (IH ltac:(lia) ltac:(lia)). eapply safe_bind; [exact IH|]. intros [l z] (I1 & I2 & I3 & I4 & I5). cbn [fst snd] in *. cbn.
  split; [constructor; [cbn; split; [lia|]; replace (start + (p - start)) with p by lia; exact X|]; eapply Forall_impl; [|exact I1]; intros o [O1 O2]; split; [lia|exact O2]|].
  split; [constructor; [exact I2|]; eapply Forall_impl; [|exact I1]; cbn; intros o [O1 _]; lia|].
  split; [constructor; [cbn; intros ->; specialize (W eq_refl); lia|exact I3]|]. split; [lia|reflexivity].
Qed.
Lemma store_safe : forall c id e l idx vals, bytes_ok (l_mem c) -> e + 10 <= zlen (l_mem c) -> reread e l -> safe (store_values c id idx l vals) (fun _ => True).
Proof.
  intros c id e l. induction l as [|o l IH]; intros idx vals B E R; [exact Logic.I|]. apply Forall_cons_iff in R as [R0 R]. cbn [store_values]. eapply safe_bind; [exact (IH (S idx) vals B E R)|]. intros vals' _.
  destruct (o_atom o =? 158) eqn:A; [|exact Logic.I]. specialize (R0 ltac:(lia)). destruct (uleb_any (l_mem c) (o_num2 o) (o_num2 o + 10) B ltac:(lia) ltac:(lia)) as (v & q & -> & _). cbn [obind]. destruct (negb (v =? o_num o)); exact Logic.I.
Qed.

(* No input makes the decoder read outside the section or run on, as long as the block is
   followed by ten more bytes of the section, and the operations it finds are in their places. *)
Theorem C42_safe_partial : forall c t p len cfap valuep, sizes c -> bytes_ok (l_mem c) -> 0 <= p -> 0 <= len -> p + len + 10 <= zlen (l_mem c) -> find_loc t p = None ->
  match intern c t p len cfap valuep with
  | Ok (None, t') => len = 0 /\ t' = t
  | Ok (Some (_, l), _) => exists mid z, l = (if cfap then [Op 156 0 0 (two64 - 1)] else []) ++ mid ++ (if valuep then [Op 159 0 0 z] else []) /\
      laid_out c p (p + len) mid /\ (match mid with o :: _ => o_off o = 0 | [] => False end) /\ len <= z
  | Err _ => 0 < len
  | _ => False
  end.
Proof.
  intros c t p len cfap valuep SZ B P L E F. destruct (Z.eq_dec len 0) as [->|N]; [cbn; auto|]. rewrite intern_fresh by assumption. unfold fresh.
  pose proof (ops_safe c p (p + len) SZ B P ltac:(lia) (S (length (l_mem c))) p ltac:(lia) ltac:(lia) ltac:(unfold zlen in E; lia)) as OS.
  destruct (ops_from (S (length (l_mem c))) c p p (p + len)) as [[l z]|n| |] eqn:OE; cbn [obind]; try contradiction; [|lia]. cbn in OS. destruct OS as (O1 & O2 & O3 & O4 & O5).
  match goal with |- context [store_values c _ 0 ?m _] => set (full := m); assert (RF : reread (p + len) full) end.
  { unfold full, reread. apply Forall_app. split; [destruct cfap; repeat constructor; cbn; intro; discriminate|]. apply Forall_app. split; [exact O3|destruct valuep; repeat constructor; cbn; intro; discriminate]. }
  pose proof (store_safe c (t_next t) (p + len) full O (t_vals t) B E RF) as SS. destruct (store_values c (t_next t) 0 full (t_vals t)) as [vs|n| |]; cbn [obind]; try contradiction; [|lia].
  exists l, (z - p). split; [reflexivity|].
  split; [split; [eapply Forall_impl; [|exact O1]; intros o [X Y]; split; [lia|exact Y]|exact O2]|].
  split; [destruct l; lia|].
  assert (ZE : p + len <= z); [|lia].
  clear - OE. revert OE. generalize (S (length (l_mem c))) as k. generalize p at 2. intros p0 k. revert p0 l. induction k as [|k IH]; intros p0 l OE; [discriminate|]. cbn [ops_from] in OE. destruct (p + len <=? p0) eqn:L; [injection OE as _ <-; lia|].
  destruct (byte_at (l_mem c) p0); cbn [obind] in OE; try discriminate. destruct (invalid (operands c a (p0 + 1) (p + len))) as [[[v w] q]| | |]; cbn [obind] in OE; try discriminate.
  destruct (ops_from k c p q (p + len)) as [[l' z']| | |] eqn:RE; cbn [obind] in OE; try discriminate. injection OE as _ <-. exact (IH q l' RE).
Qed.
Print Assumptions C42_safe_partial.

(* What fails without the restrictions: DW_OP_call2 with an offset of 32 KiB or more
   (sign-extended), DW_OP_implicit_pointer with a negative offset (read as unsigned). *)
Definition lone (mem : bytes) : loc := Loc mem true (Some (repeat 0 16)) 8 4 true.
Lemma lone_sizes : forall mem, zlen mem < two63 -> sizes (lone mem).
Proof. intros mem M. split; [right; reflexivity|]. split; [left; reflexivity|exact M]. Qed.
Ltac table_tac := apply S_table; vm_compute; repeat (first [left; reflexivity|right]).
(* The operand of DW_OP_call2 is sign-extended. *)
Theorem C42_call2_refuted : exists c p l, sizes c /\ l <> [] /\ Forall (op_ok (env_of c)) l /\ at_ (l_mem c) p (expr_bytes l) /\
  match intern c tree0 p (zlen (expr_bytes l)) false false with Ok (Some (_, x), _) => x <> delivered p (zlen (expr_bytes l)) false false l | _ => False end.
Proof.
  exists (lone [152; 0; 128]), 0, [Operation 152 [(Num 32768, [0; 128])]].
  split; [apply lone_sizes; reflexivity|]. split; [discriminate|]. split.
  - constructor; [|constructor]. exists [KU 2]. split; [table_tac|]. constructor; [|constructor]. change [0; 128] with (enc (e_le (env_of (lone [152; 0; 128]))) 2 32768). constructor. lia.
  - split; [split; [lia|]; split; [vm_compute; discriminate|reflexivity]|]. vm_compute. discriminate.
Qed.
Print Assumptions C42_call2_refuted.
(* The offset of DW_OP_implicit_pointer is read as an unsigned number. *)
Theorem C42_pointer_refuted : exists c p l, sizes c /\ l <> [] /\ Forall (op_ok (env_of c)) l /\ at_ (l_mem c) p (expr_bytes l) /\
  match intern c tree0 p (zlen (expr_bytes l)) false false with Ok (Some (_, x), _) => x <> delivered p (zlen (expr_bytes l)) false false l | _ => False end.
Proof.
  exists (lone [160; 1; 0; 0; 0; 127]), 0, [Operation 160 [(Num 1, [1; 0; 0; 0]); (Num (-1), [127])]].
  split; [apply lone_sizes; reflexivity|]. split; [discriminate|]. split.
  - constructor; [|constructor]. exists [KRef; KSleb]. split; [table_tac|]. constructor; [|constructor; [|constructor]].
    + change [1; 0; 0; 0] with (enc (e_le (env_of (lone [160; 1; 0; 0; 0; 127]))) (e_ref (env_of (lone [160; 1; 0; 0; 0; 127]))) 1). constructor. cbn. lia.
    + constructor. vm_compute. repeat split; try (intro X; discriminate).
  - split; [split; [lia|]; split; [vm_compute; discriminate|reflexivity]|]. vm_compute. discriminate.
Qed.
Print Assumptions C42_pointer_refuted.
(* Malformed blocks are accepted: an operation whose operand lies wholly or partly outside the
   block is delivered, and at the end of the section bytes outside it are read. *)
Theorem C42_bounds_refuted :
  (exists c p len, sizes c /\ 0 <= p /\ p + len <= zlen (l_mem c) /\ intern c tree0 p len false false = UB) /\
  (exists c c' p len r, sizes c /\ sizes c' /\ zsub (l_mem c) p len = zsub (l_mem c') p len /\ l_dbg c = l_dbg c' /\ l_info c = l_info c' /\ l_asize c = l_asize c' /\ l_rsize c = l_rsize c' /\ l_fle c = l_fle c' /\
     match intern c tree0 p len false false, intern c' tree0 p len false false with Ok (Some (_, x), _), Ok (Some (_, y), _) => x = [r] /\ y <> [r] | _, _ => False end).
Proof.
  split.
  - exists (lone [16]), 0, 1. split; [apply lone_sizes; reflexivity|]. split; [lia|]. split; [vm_compute; discriminate|]. reflexivity.
  - exists (lone [16; 5]), (lone [16; 6]), 0, 1, (Op 16 5 0 0). split; [apply lone_sizes; reflexivity|]. split; [apply lone_sizes; reflexivity|]. do 6 (split; [reflexivity|]). vm_compute. split; [reflexivity|discriminate].
Qed.
Print Assumptions C42_bounds_refuted.
(* The cache looks at the place only: a shorter expression at the same place, or the same one
   with other surroundings, gets the operations of the first request. *)
Theorem C42_cache_refuted : exists c p l1 l2 t, sizes c /\ Forall (op_ok (env_of c)) l1 /\ Forall (op_ok (env_of c)) l2 /\ Forall (usual c) l1 /\ Forall (usual c) l2 /\ l2 <> [] /\
  at_ (l_mem c) p (expr_bytes l1) /\ at_ (l_mem c) p (expr_bytes l2) /\ history c [(p, zlen (expr_bytes l1), false, false)] t /\
  match intern c t p (zlen (expr_bytes l2)) false false with Ok (Some (_, x), _) => x <> delivered p (zlen (expr_bytes l2)) false false l2 | _ => False end /\
  intern c t p (zlen (expr_bytes l1)) true true = UB.
Proof.
  exists (lone [48; 49]), 0, [Operation 48 []; Operation 49 []], [Operation 48 []], (Tree 1 [(0, (O, [Op 48 0 0 0; Op 49 0 0 1]))] []).
  assert (K : forall x, 48 <= x <= 111 -> op_ok (env_of (lone [48; 49])) (Operation x [])) by (intros x X; exists []; split; [apply S_reg; exact X|constructor]).
  assert (U : forall x, 48 <= x <= 111 -> usual (lone [48; 49]) (Operation x [])).
  { intros x X. repeat split; try (cbn [opcode args]; intros; discriminate). }
  split; [apply lone_sizes; reflexivity|]. split; [repeat constructor; apply K; lia|]. split; [repeat constructor; apply K; lia|]. split; [constructor; [apply U; lia|constructor; [apply U; lia|constructor]]|]. split; [constructor; [apply U; lia|constructor]|]. split; [discriminate|].
  split; [split; [lia|]; split; [vm_compute; discriminate|reflexivity]|]. split; [split; [lia|]; split; [vm_compute; discriminate|reflexivity]|]. split; [eapply Hi_next; [apply Hi_start|reflexivity]|]. split; [vm_compute; discriminate|reflexivity].
Qed.
Print Assumptions C42_cache_refuted.

(* DW_OP_addr 0x1234; DW_OP_breg7 -8; DW_OP_const2s -2; DW_OP_implicit_value "ab"; DW_OP_bregx 5 3 *)
Definition sample : list operation :=
  [Operation 3 [(Num 4660, [52; 18; 0; 0; 0; 0; 0; 0])]; Operation 119 [(Num (-8), [120])]; Operation 11 [(Num (-2), [254; 255])];
   Operation 158 [(Blk [97; 98], [2; 97; 98])]; Operation 146 [(Num 5, [5]); (Num 3, [3])]].
Definition sample_c : loc := lone ([7] ++ expr_bytes sample ++ repeat 0 10).
Example C42_nonvacuous :
  sizes sample_c /\ bytes_ok (l_mem sample_c) /\ sample <> [] /\ Forall (op_ok (env_of sample_c)) sample /\ Forall (usual sample_c) sample /\ at_ (l_mem sample_c) 1 (expr_bytes sample) /\
  1 + zlen (expr_bytes sample) + 10 <= zlen (l_mem sample_c) /\
  match intern sample_c tree0 1 (zlen (expr_bytes sample)) false false with
  | Ok (Some (i, x), t') => x = [Op 3 4660 0 0; Op 119 (two64 - 8) 0 9; Op 11 (two64 - 2) 0 11; Op 158 2 16 14; Op 146 5 3 18] /\ history sample_c [(1, zlen (expr_bytes sample), false, false)] t' /\ implicit_value t' i 3 = Ok (17, 2)
  | _ => False end.
Proof.
  split; [apply lone_sizes; reflexivity|]. split; [unfold bytes_ok, is_u8; vm_compute; repeat (constructor; [split; [discriminate|reflexivity]|]); constructor|]. split; [discriminate|]. split.
  { unfold sample; constructor; [|constructor; [|constructor; [|constructor; [|constructor; [|constructor]]]]].
    - exists [KAddr]. split; [table_tac|]. constructor; [|constructor]. change [52; 18; 0; 0; 0; 0; 0; 0] with (enc (e_le (env_of sample_c)) (e_addr (env_of sample_c)) 4660). constructor. cbn. lia.
    - exists [KSleb]. split; [apply S_breg; cbn; lia|]. constructor; [|constructor]. constructor. vm_compute. repeat split; try (intro X; discriminate).
    - exists [KS 2]. split; [table_tac|]. constructor; [|constructor]. change [254; 255] with (enc (e_le (env_of sample_c)) 2 ((-2) mod 256 ^ 2)). constructor. cbn. lia.
    - exists [KBlock]. split; [table_tac|]. constructor; [|constructor]. change [2; 97; 98] with ([2] ++ [97; 98]). constructor. vm_compute. repeat split; intro X; discriminate.
    - exists [KUleb; KSleb]. split; [table_tac|]. constructor; [|constructor; [|constructor]]; constructor; vm_compute; repeat split; intro X; discriminate. }
  split.
  { constructor; [|constructor; [|constructor; [|constructor; [|constructor; [|constructor]]]]]; (split; [cbn; intros; lia|]; split; [cbn; intros; lia|]; split; [cbn; intros; lia|]; split; [intros _; reflexivity|]; cbn; intros; lia). }
  split; [split; [lia|]; split; [vm_compute; discriminate|reflexivity]|]. split; [vm_compute; discriminate|].
  destruct (intern sample_c tree0 1 (zlen (expr_bytes sample)) false false) as [[[[i x]|] t']|n| |] eqn:E; try (vm_compute in E; discriminate).
  split; [vm_compute in E; injection E as _ <- _; reflexivity|]. split; [eapply Hi_next; [apply Hi_start|exact E]|]. vm_compute in E. injection E as <- _ <-. reflexivity.
Qed.
