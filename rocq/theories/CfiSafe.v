(* Memory safety of the CFI interpreter on arbitrary bytes. *)
From Verif Require Import Base LebModel LebProof DwModel CfiModel.

Lemma znth_Forall : forall A (P : A -> Prop) (l : list A) i x, Forall P l -> znth l i = Some x -> P x.
Proof.
  intros A P l i x F H. unfold znth in H. destruct ((0 <=? i) && (i <? zlen l)); [|discriminate]. apply nth_error_In in H.
  rewrite Forall_forall in F. apply F, H.
Qed.
Lemma land_byte : forall x, 0 <= x < 256 -> 0 <= Z.land x 127 < 128.
Proof. intros x H. rewrite land_127. apply Z.mod_pos_bound. lia. Qed.
(* one LEB128 number, possibly starting at or behind the end *)
Lemma uleb_any : forall mem p e, bytes_ok mem -> 0 <= p < zlen mem -> e <= zlen mem ->
  exists v q, get_uleb128 mem p e = Ok (v, q) /\ 0 <= v < two64 /\ p < q /\ (p < e -> q <= e) /\
    (e <= p -> q = p + 1 /\ (v < 128 \/ v = two64 - 1)).
Proof.
  intros mem p e B P E. destruct (Z_lt_le_dec p e) as [L|L].
  - destruct (get_uleb128_total mem p e B ltac:(lia) E) as (v & q & G & V & Q & _). exists v, q. unfold is_u64 in V.
    split; [exact G|]. split; [lia|]. split; [lia|]. split; lia.
  - destruct (znth_in _ mem p P) as [x X].
    pose proof (znth_Forall _ _ _ _ _ B X) as BX. unfold is_u8 in BX.
    unfold get_uleb128, uleb_step. rewrite X.
    assert (0 <= Z.land x 127 < 128) by (apply land_byte; lia).
    destruct (Z.land x 128 =? 0); cbn [obind].
    + eexists _, _. split; [reflexivity|]. rewrite Z.lor_0_l. unfold u64. rewrite Z.shiftl_0_r by lia. rewrite Z.mod_small by lia.
      split; [lia|]. split; [lia|]. split; [lia|]. intros _. split; [reflexivity|]. left. lia.
    + replace (Z.to_nat (max_len_uleb128 (p + 1 - 1) e - 1)) with O.
      2:{ unfold max_len_uleb128, max_len_leb128. replace (p + 1 - 1 <? e) with false by lia. cbn. reflexivity. }
      cbn [uleb_loop]. eexists _, _. split; [reflexivity|]. unfold UINT64_MAX. split; [lia|]. split; [lia|]. split; [lia|]. intros _. split; [reflexivity|]. right. reflexivity.
Qed.
Lemma sleb_any : forall mem p e, bytes_ok mem -> 0 <= p < zlen mem -> e <= zlen mem ->
  exists v q, get_sleb128 mem p e = Ok (v, q) /\ p < q /\ (p < e -> q <= e) /\ (e <= p -> q = p + 1).
Proof.
  intros mem p e B P E. destruct (Z_lt_le_dec p e) as [L|L].
  - destruct (get_sleb128_total mem p e B ltac:(lia) E) as (v & q & G & Q & _). exists v, q. 
    split; [exact G|]. split; [lia|]. split; lia.
  - destruct (znth_in _ mem p P) as [x X]. unfold get_sleb128, sleb_step. rewrite X.
    destruct (Z.land x 128 =? 0); cbn [obind].
    + eexists _, _. split; [reflexivity|]. lia.
    + replace (Z.to_nat (max_len_sleb128 (p + 1 - 1) e - 1)) with O.
      2:{ unfold max_len_sleb128, max_len_leb128. replace (p + 1 - 1 <? e) with false by lia. cbn. reflexivity. }
      cbn [sleb_loop]. eexists _, _. split; [reflexivity|]. lia.
Qed.

Definition cfi_ok (c : cfi) : Prop :=
  bytes_ok (c_mem c) /\ 0 <= c_dsize c /\ c_dsize c + 1 <= zlen (c_mem c) /\ 0 <= c_vaddr c < two64.
(* the outcome is a value accepted by P, or an error code *)
Definition safe {A} (o : outcome A) (P : A -> Prop) : Prop :=
  match o with Ok a => P a | Err _ => True | _ => False end.
Lemma safe_bind : forall A B (o : outcome A) (k : A -> outcome B) P Q,
  safe o P -> (forall a, P a -> safe (k a) Q) -> safe (obind o k) Q.
Proof. intros A B [a|e| |] k P Q H K; cbn in *; try exact H. apply K, H. Qed.
Lemma safe_impl : forall A (o : outcome A) (P Q : A -> Prop), safe o P -> (forall a, P a -> Q a) -> safe o Q.
Proof. intros A [a|e| |] P Q H K; cbn in *; auto. Qed.

Lemma rd_safe : forall fle mem p n, 0 <= p -> p + n <= zlen mem -> safe (rd fle mem p n) (fun _ => True).
Proof. intros fle mem p n H1 H2. rewrite rd_in by assumption. exact Logic.I. Qed.
Lemma cfi_read_address_safe : forall c p w, cfi_ok c -> (w = 0 \/ w = 4 \/ w = 8) -> 0 <= p -> safe (cfi_read_address c p w) (fun _ => True).
Proof.
  intros c p w (B & D0 & D & V) W P. unfold cfi_read_address.
  assert (G : forall w, (w = 4 \/ w = 8) -> safe (if c_eh c then
    if w =? 4
    then if c_dsize c <? p + 4 then Err DWARF_E_INVALID_CFI else rd (c_fle c) (c_mem c) p 4
    else if c_dsize c <? p + 8 then Err DWARF_E_INVALID_CFI else rd (c_fle c) (c_mem c) p 8
  else if (p <? 0) || (c_dsize c <? w) || (c_dsize c - w <? p) then Err DWARF_E_INVALID_OFFSET
  else rd (c_fle c) (c_mem c) p w) (fun _ => True)).
  { intros u U. destruct (c_eh c).
    - destruct (u =? 4); [destruct (c_dsize c <? p + 4) eqn:E|destruct (c_dsize c <? p + 8) eqn:E]; try exact Logic.I; apply rd_safe; lia.
    - destruct ((p <? 0) || (c_dsize c <? u) || (c_dsize c - u <? p)) eqn:E; [exact Logic.I|]. apply rd_safe; lia. }
  destruct W as [-> | [-> | ->]]; [apply (G (addr_width c)); unfold addr_width; destruct (c_c32 c); lia|apply (G 4); lia|apply (G 8); lia].
Qed.
Lemma leb_scan_safe : forall mem n p, 0 <= p -> p + Z.of_nat n <= zlen mem ->
  safe (leb_scan mem n p) (fun r => match r with Some e => p < e <= p + Z.of_nat n | None => True end).
Proof.
  intros mem. induction n as [|n IH]; intros p P L; cbn [leb_scan]; [exact Logic.I|].
  unfold byte_at. destruct (znth_in _ mem p ltac:(lia)) as [x ->]. cbn [obind].
  destruct (Z.land x 128 =? 0); [|cbn; lia]. apply (safe_impl _ _ _ _ (IH (p + 1) ltac:(lia) ltac:(lia))). intros [e|]; [lia|trivial].
Qed.
Lemma encoded_value_size_safe : forall c encoding p, cfi_ok c -> 0 <= p ->
  safe (encoded_value_size c encoding (Some p)) (fun s => 0 <= s /\ (Z.land encoding 7 = 1 -> p <= c_dsize c -> p + s <= c_dsize c)).
Proof.
  intros c encoding p (B & D0 & D & V) P. unfold encoded_value_size.
  destruct (encoding =? 255) eqn:E0; [cbn; lia|].
  destruct (Z.land encoding 7 =? 2) eqn:E1; [cbn; lia|]. destruct (Z.land encoding 7 =? 3) eqn:E2; [cbn; lia|].
  destruct (Z.land encoding 7 =? 4) eqn:E3; [cbn; lia|]. destruct (Z.land encoding 7 =? 0) eqn:E4; [cbn; unfold addr_width; destruct (c_c32 c); lia|].
  destruct (Z.land encoding 7 =? 1) eqn:E5; [|cbn; lia].
  destruct (Z_le_gt_dec p (c_dsize c)) as [L|L].
  - eapply safe_bind; [apply leb_scan_safe; lia|]. intros [e|] R; cbn; lia.
  - replace (Z.to_nat (c_dsize c - p)) with O by lia. cbn. lia.
Qed.
Lemma land_low : forall v s, 0 <= v -> 1 <= s -> 0 <= Z.land v (s - 1) <= s - 1.
Proof.
  intros v s V S. split; [apply Z.land_nonneg; lia|].
  assert (G : forall a b, 0 <= a -> 0 <= b -> Z.land a b <= b).
  { intros a b A B2. pose proof (Z.land_nonneg a b). 
    assert (Z.land a b = b - Z.ldiff b a).
    { rewrite (Z.land_comm a b). rewrite (Z.sub_nocarry_ldiff b (Z.ldiff b a)).
      - apply Z.bits_inj'. intros n N. rewrite !Z.ldiff_spec, Z.land_spec. destruct (Z.testbit b n), (Z.testbit a n); reflexivity.
      - apply Z.bits_inj'. intros n N. rewrite !Z.ldiff_spec, Z.bits_0. destruct (Z.testbit b n), (Z.testbit a n); reflexivity. }
    pose proof (Z.ldiff_nonneg b a). lia. }
  apply G; lia.
Qed.
Lemma encoded_base_safe : forall c encoding p, cfi_ok c -> 0 <= p <= c_dsize c ->
  safe (encoded_base c encoding p) (fun r => p <= snd r /\ (Z.land encoding 7 = 1 -> snd r <= c_dsize c)).
Proof.
  intros c encoding p C P. pose proof C as (B & D0 & D & V). unfold encoded_base.
  destruct (Z.land encoding 112 =? 0); [cbn; lia|]. destruct (Z.land encoding 112 =? 16); [cbn; lia|].
  destruct (Z.land encoding 112 =? 32); [cbn; lia|]. destruct (Z.land encoding 112 =? 48); [cbn; lia|].
  destruct (Z.land encoding 112 =? 64); [cbn; lia|]. destruct (Z.land encoding 112 =? 80); [|exact Logic.I].
  eapply safe_bind; [apply encoded_value_size_safe; [exact C|lia]|]. intros s [S1 S2]. cbn beta in *.
  destruct (s =? 0) eqn:E; [exact Logic.I|].
  pose proof (land_low (u64 (c_vaddr c + p)) s (proj1 (Z.mod_pos_bound _ two64 ltac:(lia))) ltac:(lia)) as Q.
  destruct (Z.land (u64 (c_vaddr c + p)) (s - 1) =? 0); cbn; lia.
Qed.
Lemma land_7_15 : forall e, Z.land e 7 = Z.land (Z.land e 15) 7.
Proof. intros e. rewrite <- Z.land_assoc. reflexivity. Qed.
Lemma encoded_raw_safe : forall c encoding p, cfi_ok c -> 0 <= p -> (Z.land encoding 7 = 1 -> p <= c_dsize c) ->
  safe (encoded_raw c encoding p) (fun r => p < snd r /\ 0 <= fst r).
Proof.
  intros c encoding p C P L. pose proof C as (B & D0 & D & V). unfold encoded_raw.
  assert (AW : addr_width c = 4 \/ addr_width c = 8) by (unfold addr_width; destruct (c_c32 c); lia).
  assert (RA : forall w q (f : Z -> Z), (w = 0 \/ w = 4 \/ w = 8) -> p < q -> (forall v, 0 <= v -> 0 <= f v) ->
    safe (v <- cfi_read_address c p w ;; Ok (f v, q)) (fun r => p < snd r /\ 0 <= fst r)).
  { intros w q f W Q F. destruct (cfi_read_address c p w) as [v|e| |] eqn:R; pose proof (cfi_read_address_safe c p w C W P) as S; rewrite R in S; cbn in *;
      try exact S. split; [exact Q|]. apply F.
    clear - R B AW W. unfold cfi_read_address in R.
    assert (exists n, 0 <= n /\ rd (c_fle c) (c_mem c) p n = Ok v) as (n & N & R').
    { destruct (c_eh c).
      - destruct ((if w =? 0 then addr_width c else w) =? 4); [destruct (c_dsize c <? p + 4)|destruct (c_dsize c <? p + 8)];
          try discriminate; [exists 4|exists 8]; (split; [lia|exact R]).
      - match type of R with (if ?b then _ else _) = _ => destruct b; [discriminate|] end. exists (if w =? 0 then addr_width c else w). split; [|exact R]. destruct (w =? 0); lia. }
    exact (proj1 (rd_bound _ _ _ _ _ B N R')). }

  assert (R2 : forall f : Z -> Z, (forall v, 0 <= v -> 0 <= f v) ->
    safe (if c_dsize c <? p + 2 then Err DWARF_E_INVALID_CFI else v <- rd (c_fle c) (c_mem c) p 2 ;; Ok (f v, p + 2)) (fun r => p < snd r /\ 0 <= fst r)).
  { intros f F. destruct (c_dsize c <? p + 2) eqn:E; [exact Logic.I|]. destruct (rd (c_fle c) (c_mem c) p 2) as [v|e| |] eqn:R.
    - cbn. split; [lia|]. apply F. exact (proj1 (rd_bound _ _ _ 2 _ B (Z.le_0_2) R)).
    - exact Logic.I.
    - unfold rd in R. replace ((0 <=? p) && (p + 2 <=? zlen (c_mem c))) with true in R by lia. discriminate.
    - unfold rd in R. replace ((0 <=? p) && (p + 2 <=? zlen (c_mem c))) with true in R by lia. discriminate. }
  rewrite land_7_15 in L. remember (Z.land encoding 15) as k. clear Heqk.
  destruct (k =? 2) eqn:K1; [apply (R2 (fun v => v)); trivial|].
  destruct (k =? 10) eqn:K2; [apply (R2 (fun v => u64 (s16 v))); intros; apply (Z.mod_pos_bound _ two64); lia|].
  destruct (k =? 3) eqn:K3; [apply (RA 4 (p + 4) (fun v => v)); [lia|lia|trivial]|].
  destruct (k =? 11) eqn:K4; [apply (RA 4 (p + 4) (fun v => u64 (s32 v))); [lia|lia|intros; apply (Z.mod_pos_bound _ two64); lia]|].
  destruct ((k =? 4) || (k =? 12)) eqn:K5; [apply (RA 8 (p + 8) (fun v => v)); [lia|lia|trivial]|].
  destruct (k =? 0) eqn:K6; [apply (RA 0 (p + addr_width c) (fun v => v)); [lia|lia|trivial]|].
  destruct (k =? 1) eqn:K7.
  { replace k with 1 in L by lia. specialize (L eq_refl).
    destruct (uleb_any (c_mem c) p (c_dsize c) B ltac:(lia) ltac:(lia)) as (v & q & -> & Q1 & Q2 & _). cbn. lia. }
  destruct (k =? 9) eqn:K8; [|exact Logic.I].
  replace k with 9 in L by lia. specialize (L eq_refl).
  destruct (sleb_any (c_mem c) p (c_dsize c) B ltac:(lia) ltac:(lia)) as (v & q & -> & Q2 & _). cbn. split; [lia|].
  apply (Z.mod_pos_bound _ two64); lia.
Qed.
Lemma read_encoded_safe : forall c encoding p, cfi_ok c -> 0 <= p <= c_dsize c ->
  safe (read_encoded_value c encoding p) (fun r => p < snd r).
Proof.
  intros c encoding p C P. pose proof C as (B & D0 & D & V). unfold read_encoded_value.
  eapply safe_bind; [apply (encoded_base_safe c encoding p C P)|]. intros [base p1] [P1 P2]. cbn [fst snd] in *.
  eapply safe_bind; [apply (encoded_raw_safe c encoding p1 C); [lia|exact P2]|]. intros [v p2] [P3 P4]. cbn [fst snd] in *.
  assert (safe (encoded_indirect c encoding (u64 (base + v))) (fun _ => True)) as S.
  { unfold encoded_indirect. destruct (Z.land encoding 128 =? 0); [exact Logic.I|].
    destruct (u64 (base + v) <? c_vaddr c) eqn:E; [exact Logic.I|].
    destruct ((c_dsize c <? addr_width c) || (c_dsize c - addr_width c <? u64 (base + v) - c_vaddr c)); [exact Logic.I|].
    apply cfi_read_address_safe; [exact C|lia|lia]. }
  eapply safe_bind; [exact S|]. intros r _. cbn. lia.
Qed.

(* ------------------------------------------------------------------ *)
(* The state invariant: the register array fits the arithmetic; frames are otherwise
   arbitrary. *)
Lemma enough_safe : forall r fs, 0 <= r -> safe (enough_registers r fs) (fun _ => True).
Proof. intros r fs R. unfold enough_registers. destruct (MAX_REG <=? r); [exact Logic.I|]. destruct (zlen (f_regs fs) <=? r); exact Logic.I. Qed.
Lemma register_rule_safe : forall r v s, 0 <= r -> safe (register_rule r v s) (fun _ => True).
Proof. intros r v s R. unfold register_rule. eapply safe_bind; [apply enough_safe, R|]. intros fs _. exact Logic.I. Qed.
Lemma do_restore_safe : forall k abi op r s, 0 <= r -> safe (do_restore k abi op r s) (fun _ => True).
Proof.
  intros k abi op r s R. unfold do_restore. destruct (abi && (op =? 192)); [exact Logic.I|]. destruct (k_init k) as [i|]; [|exact Logic.I].
  eapply safe_bind; [apply enough_safe, R|]. intros fs _. exact Logic.I.
Qed.
Lemma ptr_add_any : forall e p v, 0 <= v < two64 -> 0 <= e -> 0 <= p -> p <= e + 2 -> p < 2 ^ 60 -> e < 2 ^ 60 ->
  (p <= e \/ v < 128 \/ v = two64 - 1) -> v <= u64 (e - p) -> e - 1 < ptr_add p v \/ p <= ptr_add p v.
Proof.
  intros e p v V E P PE S1 S2 C L. unfold ptr_add, s64.
  destruct (Z_le_gt_dec p e) as [A|A].
  - unfold u64 in L. rewrite Z.mod_small in L by lia. rewrite Z.mod_small by lia. lia.
  - destruct C as [C|[C|C]]; [lia|rewrite Z.mod_small by lia; lia|]. subst v.
    assert (p = e + 1 \/ p = e + 2) as [-> | ->] by lia.
    + left. change ((two64 - 1 + two63) mod two64 - two63) with (-1). lia.
    + exfalso. replace (e - (e + 2)) with (-2) in L by lia. unfold u64 in L. change (-2 mod two64) with (two64 - 2) in L. lia.
Qed.

Lemma cfi_step_safe : forall c k pend p s, cfi_ok c -> 0 <= p < pend -> pend + 2 <= zlen (c_mem c) -> pend <= c_dsize c -> pend < 2 ^ 59 ->
  safe (cfi_step c k false (c_mem c) pend p s) (fun r => p < snd (fst r)).
Proof.
  intros c k pend p s C P PM PD PE. pose proof C as (B & D0 & D & V).
  remember (c_mem c) as mem eqn:MEM.
  assert (U : forall q (kk : Z * Z -> outcome (bool * Z * state)), 0 <= q <= pend + 1 ->
    (forall v q', 0 <= v < two64 -> q < q' -> (q < pend -> q' <= pend) -> (pend <= q -> q' = q + 1 /\ (v < 128 \/ v = two64 - 1)) ->
       safe (kk (v, q')) (fun r => p < snd (fst r))) -> safe (obind (get_uleb128 mem q pend) kk) (fun r => p < snd (fst r))).
  { intros q kk Q K. destruct (uleb_any mem q pend B ltac:(lia) ltac:(lia)) as (v & q' & -> & R1 & R2 & R3 & R4). cbn [obind]. apply K; assumption. }
  assert (SL : forall q (kk : Z * Z -> outcome (bool * Z * state)), 0 <= q <= pend + 1 ->
    (forall v q', q < q' -> (q < pend -> q' <= pend) -> (pend <= q -> q' = q + 1) ->
       safe (kk (v, q')) (fun r => p < snd (fst r))) -> safe (obind (get_sleb128 mem q pend) kk) (fun r => p < snd (fst r))).
  { intros q kk Q K. destruct (sleb_any mem q pend B ltac:(lia) ltac:(lia)) as (v & q' & -> & R2 & R3 & R4). cbn [obind]. apply K; assumption. }
  assert (CA : forall b (kk : unit -> outcome (bool * Z * state)), (b = true -> safe (kk tt) (fun r => p < snd (fst r))) ->
    safe (obind (cfi_assert b) kk) (fun r => p < snd (fst r))).
  { intros [] kk K; cbn; [apply K; reflexivity|exact Logic.I]. }
  assert (RR : forall r v q, 0 <= r -> p < q -> safe (s0 <- register_rule r v s ;; Ok (false, q, s0)) (fun r => p < snd (fst r))).
  { intros r v q R Q. eapply safe_bind; [apply register_rule_safe, R|]. intros s0 _. cbn. exact Q. }
  assert (RS : forall op r q, 0 <= r -> p < q -> safe (s0 <- do_restore k false op r s ;; Ok (false, q, s0)) (fun r => p < snd (fst r))).
  { intros op r q R Q. eapply safe_bind; [apply do_restore_safe, R|]. intros s0 _. cbn. exact Q. }
  unfold cfi_step, byte_at. destruct (znth_in _ mem p ltac:(lia)) as [op OP]. rewrite OP. cbn [obind].
  pose proof (znth_Forall _ _ _ _ _ B OP) as BO. unfold is_u8 in BO.
  assert (OP0 : 0 <= Z.land op 63) by (apply Z.land_nonneg; lia).
  destruct (op =? 2). { destruct (znth_in _ mem (p + 1) ltac:(lia)) as [x ->]. cbn. lia. }
  destruct (Z.land op 192 =? 64). { cbn. lia. }
  destruct (op =? 3). { apply CA. intros E. eapply safe_bind; [apply rd_safe; lia|]. intros x _. cbn. lia. }
  destruct (op =? 4). { apply CA. intros E. eapply safe_bind; [apply rd_safe; lia|]. intros x _. cbn. lia. }
  destruct (op =? 29). { apply CA. intros E. eapply safe_bind; [apply rd_safe; lia|]. intros x _. cbn. lia. }
  destruct (op =? 1). { eapply safe_bind; [apply (read_encoded_safe c (k_enc k) (p + 1) C); lia|]. intros [x q] Q. cbn in *. lia. }
  destruct (op =? 12). { apply U; [lia|]. intros v q V1 Q1 Q2 Q3. apply CA. intros E. apply U; [lia|]. intros v' q' V1' Q1' Q2' Q3'. cbn. lia. }
  destruct (op =? 13). { apply U; [lia|]. intros v q V1 Q1 Q2 Q3. cbn. lia. }
  destruct (op =? 18). { apply U; [lia|]. intros v q V1 Q1 Q2 Q3. apply CA. intros E. apply SL; [lia|]. intros v' q' Q1' Q2' Q3'. cbn. lia. }
  destruct (op =? 14). { apply U; [lia|]. intros v q V1 Q1 Q2 Q3. cbn. lia. }
  destruct (op =? 19). { apply SL; [lia|]. intros v q Q1 Q2 Q3. cbn. lia. }
  destruct (op =? 15). { apply U; [lia|]. intros v q V1 Q1 Q2 Q3. apply CA. intros E. cbn [safe fst snd].
    destruct (ptr_add_any pend q v V1 ltac:(lia) ltac:(lia) ltac:(lia) ltac:(lia) ltac:(lia) ltac:(lia) ltac:(lia)); lia. }
  destruct (op =? 7). { apply U; [lia|]. intros v q V1 Q1 Q2 Q3. apply RR; lia. }
  destruct (op =? 8). { apply U; [lia|]. intros v q V1 Q1 Q2 Q3. apply RR; lia. }
  destruct (op =? 5). { apply U; [lia|]. intros v q V1 Q1 Q2 Q3. apply CA. intros E. apply U; [lia|]. intros v' q' V1' Q1' Q2' Q3'. apply RR; lia. }
  destruct (Z.land op 192 =? 128). { apply U; [lia|]. intros v q V1 Q1 Q2 Q3. apply RR; lia. }
  destruct (op =? 17). { apply U; [lia|]. intros v q V1 Q1 Q2 Q3. apply SL; [lia|]. intros v' q' Q1' Q2' Q3'. apply RR; lia. }
  destruct (op =? 47). { apply U; [lia|]. intros v q V1 Q1 Q2 Q3. apply CA. intros E. apply U; [lia|]. intros v' q' V1' Q1' Q2' Q3'. apply RR; lia. }
  destruct (op =? 20). { apply U; [lia|]. intros v q V1 Q1 Q2 Q3. apply CA. intros E. apply U; [lia|]. intros v' q' V1' Q1' Q2' Q3'. apply RR; lia. }
  destruct (op =? 21). { apply U; [lia|]. intros v q V1 Q1 Q2 Q3. apply CA. intros E. apply SL; [lia|]. intros v' q' Q1' Q2' Q3'. apply RR; lia. }
  destruct (op =? 9). { apply U; [lia|]. intros v q V1 Q1 Q2 Q3. apply CA. intros E. apply U; [lia|]. intros v' q' V1' Q1' Q2' Q3'. apply RR; lia. }
  destruct (op =? 16). { apply U; [lia|]. intros v q V1 Q1 Q2 Q3. apply CA. intros E. apply U; [lia|]. intros v' q' V1' Q1' Q2' Q3'. apply CA. intros E'. apply RR; [lia|].
    destruct (ptr_add_any pend q' v' V1' ltac:(lia) ltac:(lia) ltac:(lia) ltac:(lia) ltac:(lia) ltac:(lia) ltac:(lia)); lia. }
  destruct (op =? 22). { apply U; [lia|]. intros v q V1 Q1 Q2 Q3. apply U; [lia|]. intros v' q' V1' Q1' Q2' Q3'. apply CA. intros E'. apply RR; [lia|].
    destruct (ptr_add_any pend q' v' V1' ltac:(lia) ltac:(lia) ltac:(lia) ltac:(lia) ltac:(lia) ltac:(lia) ltac:(lia)); lia. }
  destruct (op =? 6). { apply U; [lia|]. intros v q V1 Q1 Q2 Q3. apply RS; lia. }
  destruct (Z.land op 192 =? 192). { apply RS; lia. }
  destruct (op =? 10). { cbn. lia. }
  destruct (op =? 11). { destruct (s_prev s); [exact Logic.I|]. cbn. lia. }
  destruct (op =? 0). { cbn. lia. }
  destruct (op =? 45). { eapply safe_bind; [apply enough_safe; lia|]. intros fs _. cbn. lia. }
  destruct (op =? 46). { apply U; [lia|]. intros v q V1 Q1 Q2 Q3. cbn. lia. }
  exact Logic.I.
Qed.

Lemma cfi_loop_safe : forall fuel err c k pend pc p s, cfi_ok c -> 0 <= p -> pend + 2 <= zlen (c_mem c) -> pend <= c_dsize c -> pend < 2 ^ 59 ->
  (Z.to_nat (pend - p) < fuel)%nat ->
  safe (cfi_loop fuel err c k false (c_mem c) pend pc p s) (fun _ => True).
Proof.
  induction fuel as [|fuel IH]; intros err c k pend pc p s C P PM PD PE F; [lia|]. cbn [cfi_loop].
  destruct (p <? pend) eqn:L; [|exact Logic.I].
  pose proof (cfi_step_safe c k pend p s C ltac:(lia) PM PD PE) as ST.
  destruct (cfi_step c k false (c_mem c) pend p s) as [[[m q] s1]|e| |]; cbn in ST; [| |destruct ST|destruct ST].
  - destruct m.
    + destruct (k_init k); [|exact Logic.I]. destruct (s_loc s1 <=? pc); [|exact Logic.I]. apply IH; try assumption; lia.
    + apply IH; try assumption; lia.
  - destruct (e =? 0); [destruct (err =? 0); exact Logic.I|exact Logic.I].
Qed.
