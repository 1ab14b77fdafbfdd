(* The interpreter runs an encoded program as the specification prescribes. *)
From Verif Require Import Base LebModel LebSpec LebProof DwModel Slice CfiModel CfiSpec.

(* ------------------------------------------------------------------ *)
(* Reading encoded parts. *)
Lemma at_shift : forall mem p a b, at_ mem p (a :: b) -> at_ mem (p + 1) b.
Proof. intros mem p a b H. change (a :: b) with ([a] ++ b) in H. apply at_app2 in H. exact H. Qed.
Lemma byte_at_at : forall mem p v rest, at_ mem p (v :: rest) -> byte_at mem p = Ok v.
Proof.
  intros mem p v rest H. change (v :: rest) with ([v] ++ rest) in H. apply at_split in H as (pre & post & -> & <-).
  unfold byte_at. rewrite znth_app_r by lia. rewrite Z.sub_diag. reflexivity.
Qed.
Lemma uleb_at : forall mem p e v b, uleb_of v b -> at_ mem p b -> p + zlen b <= e -> get_uleb128 mem p e = Ok (v, p + zlen b).
Proof.
  intros mem p e v b (C & L & V & R) A E. rewrite <- (app_nil_r b) in A. apply at_split in A as (pre & post & -> & <-).
  cbn [app]. rewrite get_uleb128_correct by assumption. rewrite V. rewrite Z.mod_small; [reflexivity|].
  split; [|exact R]. rewrite <- V. clear - C. 
  assert (G : forall b, 0 <= uleb_value b).
  { induction b0 as [|x r IH]; cbn [uleb_value]; [lia|]. pose proof (Z.mod_pos_bound x 128 ltac:(lia)). lia. }
  apply G.
Qed.
Lemma uleb_of_nonneg : forall v b, uleb_of v b -> 0 <= v < two64.
Proof.
  intros v b (C & L & V & R). split; [|exact R]. rewrite <- V.
  assert (G : forall b, 0 <= uleb_value b).
  { induction b0 as [|x r IH]; cbn [uleb_value]; [lia|]. pose proof (Z.mod_pos_bound x 128 ltac:(lia)). lia. }
  apply G.
Qed.
Lemma sleb_at : forall mem p e v b, sleb_of v b -> at_ mem p b -> p + zlen b <= e -> get_sleb128 mem p e = Ok (v, p + zlen b).
Proof.
  intros mem p e v b (C & L & V) A E. rewrite <- (app_nil_r b) in A. apply at_split in A as (pre & post & -> & <-).
  cbn [app]. rewrite get_sleb128_correct by assumption. rewrite V. reflexivity.
Qed.
Lemma leb_nonempty : forall b, leb_complete b -> 0 < zlen b.
Proof. intros [|x r] H; [destruct H|]. rewrite zlen_cons. pose proof (zlen_nonneg _ r). lia. Qed.
Lemma uleb_len : forall v b, uleb_of v b -> 0 < zlen b.
Proof. intros v b H. apply leb_nonempty, H. Qed.
Lemma sleb_len : forall v b, sleb_of v b -> 0 < zlen b.
Proof. intros v b H. apply leb_nonempty, H. Qed.
Lemma u64_small : forall v, 0 <= v < two64 -> u64 v = v.
Proof. intros v H. apply Z.mod_small, H. Qed.
Lemma u64_bound : forall v, 0 <= u64 v < two64.
Proof. intros v. apply Z.mod_pos_bound. lia. Qed.
Lemma u64_add : forall a b, u64 (u64 a + b) = u64 (a + b).
Proof. intros a b. unfold u64. apply Zplus_mod_idemp_l. Qed.
Lemma u64_add_r : forall a b, u64 (a + u64 b) = u64 (a + b).
Proof. intros a b. unfold u64. apply Zplus_mod_idemp_r. Qed.
Lemma u64_mul : forall a b, u64 (u64 a * b) = u64 (a * b).
Proof. intros a b. unfold u64. apply Zmult_mod_idemp_l. Qed.
Lemma s61_u64 : forall n, off_ok n -> s61 (u64 n) = n.
Proof.
  intros n H. unfold off_ok in H. unfold s61, u64. 
  rewrite <- (Zplus_mod_idemp_l (n mod two64) (2 ^ 60) (2 ^ 61)).
  rewrite <- (Znumtheory.Zmod_div_mod (2 ^ 61) two64 n) by (try lia; exists 8; reflexivity).
  rewrite Zplus_mod_idemp_l. rewrite Z.mod_small by lia. lia.
Qed.
Lemma s61_small : forall n, off_ok n -> s61 n = n.
Proof. intros n H. unfold off_ok in H. unfold s61. rewrite Z.mod_small by lia. lia. Qed.

Lemma cfi_read_address_at : forall c p w v, (w = 4 \/ w = 8) -> 0 <= v < 256 ^ w -> at_ (c_mem c) p (enc (c_fle c) w v) ->
  p + w <= c_dsize c -> cfi_read_address c p w = Ok v.
Proof.
  intros c p w v W V A E. pose proof (at_bound _ _ _ A) as [P _]. unfold cfi_read_address.
  assert (R : rd (c_fle c) (c_mem c) p w = Ok v) by (apply rd_at; [lia|exact V|exact A]).
  destruct W as [-> | ->]; cbn [Z.eqb Pos.eqb]; destruct (c_eh c).
  - replace (c_dsize c <? p + 4) with false by lia. exact R.
  - replace ((p <? 0) || (c_dsize c <? 4) || (c_dsize c - 4 <? p)) with false by lia. exact R.
  - replace (c_dsize c <? p + 8) with false by lia. exact R.
  - replace ((p <? 0) || (c_dsize c <? 8) || (c_dsize c - 8 <? p)) with false by lia. exact R.
Qed.
Lemma cfi_read_address_abs : forall c p v, 0 <= v < 256 ^ addr_width c -> at_ (c_mem c) p (enc (c_fle c) (addr_width c) v) ->
  p + addr_width c <= c_dsize c -> cfi_read_address c p 0 = Ok v.
Proof.
  intros c p v V A E. 
  assert (cfi_read_address c p 0 = cfi_read_address c p (addr_width c)) as ->.
  { unfold cfi_read_address. cbn [Z.eqb]. unfold addr_width. destruct (c_c32 c); reflexivity. }
  apply cfi_read_address_at; [unfold addr_width; destruct (c_c32 c); lia|exact V|exact A|exact E].
Qed.
Lemma wrap_signed : forall n v, 0 < n <= 64 -> - 2 ^ (n - 1) <= v < 2 ^ (n - 1) ->
  (v mod 2 ^ n + 2 ^ (n - 1)) mod 2 ^ n - 2 ^ (n - 1) = v.
Proof.
  intros n v N H. rewrite Zplus_mod_idemp_l.
  assert (2 ^ n = 2 * 2 ^ (n - 1)) by (rewrite <- Z.pow_succ_r by lia; f_equal; lia).
  rewrite Z.mod_small by lia. lia.
Qed.
Lemma encoded_raw_at : forall c f v b p, fmt_encodes c f v b -> at_ (c_mem c) p b -> p + zlen b <= c_dsize c ->
  forall encoding, Z.land encoding 15 = f -> encoded_raw c encoding p = Ok (u64 v, p + zlen b).
Proof.
  intros c f v b p F A E encoding K. unfold encoded_raw. rewrite K. clear K.
  assert (AW : addr_width c = 4 \/ addr_width c = 8) by (unfold addr_width; destruct (c_c32 c); lia).
  destruct F as [v V|v b V|v V|v V|v V|v b V|v V|v V|v V];
    (try rewrite zlen_enc in * by lia); cbn [Z.eqb Pos.eqb orb].
  - rewrite (cfi_read_address_abs c p v V A E). cbn [obind]. rewrite u64_small; [reflexivity|]. destruct AW as [-> | ->] in V; cbn in V; lia.
  - rewrite (uleb_at _ _ _ v b V A E). rewrite u64_small by (exact (uleb_of_nonneg _ _ V)). reflexivity.
  - replace (c_dsize c <? p + 2) with false by lia. rewrite (rd_at (c_fle c) (c_mem c) p 2 v ltac:(lia) V A). cbn [obind].
    rewrite u64_small by (cbn in V; lia). reflexivity.
  - rewrite (cfi_read_address_at c p 4 v ltac:(lia) V A E). cbn [obind]. rewrite u64_small by (cbn in V; lia). reflexivity.
  - rewrite (cfi_read_address_at c p 8 v ltac:(lia) V A E). cbn [obind]. rewrite u64_small by (cbn in V; lia). reflexivity.
  - rewrite (sleb_at _ _ _ v b V A E). reflexivity.
  - replace (c_dsize c <? p + 2) with false by lia.
    rewrite (rd_at (c_fle c) (c_mem c) p 2 (v mod 2 ^ 16) ltac:(lia) (Z.mod_pos_bound v (2 ^ 16) ltac:(lia)) A). cbn [obind].
    do 3 f_equal. exact (wrap_signed 16 v ltac:(lia) V).
  - rewrite (cfi_read_address_at c p 4 (v mod 2 ^ 32) ltac:(lia) (Z.mod_pos_bound v (2 ^ 32) ltac:(lia)) A E). cbn [obind].
    do 3 f_equal. exact (wrap_signed 32 v ltac:(lia) V).
  - rewrite (cfi_read_address_at c p 8 (v mod 2 ^ 64) ltac:(lia) (Z.mod_pos_bound v (2 ^ 64) ltac:(lia)) A E). reflexivity.
Qed.
Lemma read_encoded_at : forall c encoding p a b, ptr_encodes c encoding p a b -> at_ (c_mem c) p b -> p + zlen b <= c_dsize c ->
  read_encoded_value c encoding p = Ok (a, p + zlen b).
Proof.
  intros c encoding p a b (ap & f & base & v & -> & B & F & ->) A E.
  assert (KF : Z.land (ap + f) 15 = f /\ Z.land (ap + f) 112 = ap /\ Z.land (ap + f) 128 = 0).
  { destruct B; destruct F; vm_compute; repeat split; reflexivity. }
  destruct KF as (K1 & K2 & K3).
  assert (EB : encoded_base c (ap + f) p = Ok (if ap =? 16 then u64 base else base, p)).
  { unfold encoded_base. rewrite K2. destruct B; reflexivity. }
  unfold read_encoded_value. rewrite EB. cbn [obind]. rewrite (encoded_raw_at c f v b p F A E _ K1). cbn [obind].
  unfold encoded_indirect. rewrite K3. cbn [Z.eqb obind]. do 2 f_equal.
  rewrite u64_add_r. destruct (ap =? 16); [apply u64_add|reflexivity].
Qed.

(* ------------------------------------------------------------------ *)
(* The meaning of the implementation's rules. *)
Definition reg_of (l : list rrule) (n : Z) : rrule := match znth l n with Some r => r | None => RUnspec end.
Definition rule_means (c : cfi) (r : rrule) (t : srule) : Prop :=
  match t with
  | Unspecified => r = RUnspec
  | Undefined => r = RUndef
  | SameValue => r = RSame
  | Offset n => r = ROff n
  | ValOffset n => r = RValOff n
  | Register n => r = RReg n /\ 0 <= n < two64
  | Expression b => exists p x, r = RExpr p /\ uleb_of (zlen b) x /\ at_ (c_mem c) p (x ++ b) /\ p + zlen (x ++ b) <= c_dsize c
  | ValExpression b => exists p x, r = RValExpr p /\ uleb_of (zlen b) x /\ at_ (c_mem c) p (x ++ b) /\ p + zlen (x ++ b) <= c_dsize c
  end.
Definition cfa_means (c : cfi) (r : cfa_t) (t : scfa) : Prop :=
  match t with
  | NoCfa => r = CfaUndef
  | RegOff g n => r = CfaOff g (u64 n)
  | CfaExpression b => exists p, r = CfaExpr p (zlen b) /\ at_ (c_mem c) p b /\ p + zlen b <= c_dsize c
  | BadCfa => r = CfaInvalid
  end.
Definition frame_means (c : cfi) (fs : frame) (t : rules) : Prop :=
  cfa_means c (f_cfa fs) (t_cfa t) /\ forall n, 0 <= n -> rule_means c (reg_of (f_regs fs) n) (t_reg t n).

Lemma reg_of_grow : forall l n k, reg_of (l ++ repeat RUnspec k) n = reg_of l n.
Proof.
  intros l n k. unfold reg_of. destruct (Z_lt_le_dec n (zlen l)) as [L|L].
  - destruct (Z_lt_le_dec n 0) as [N|N].
    + rewrite !znth_out by lia. reflexivity.
    + rewrite znth_app_l by lia. reflexivity.
  - rewrite znth_app_r by lia. rewrite (znth_out _ l) by lia.
    unfold znth. destruct ((0 <=? n - zlen l) && (n - zlen l <? zlen (repeat RUnspec k))) eqn:Q; [|reflexivity].
    destruct (nth_error (repeat RUnspec k) (Z.to_nat (n - zlen l))) eqn:N; [|reflexivity].
    apply nth_error_In in N. apply repeat_spec in N. exact N.
Qed.
Lemma enough_ok : forall r fs, reg_ok r -> exists l, enough_registers r fs = Ok (set_regs fs l) /\ r < zlen l /\
  forall n, reg_of l n = reg_of (f_regs fs) n.
Proof.
  intros r fs R. unfold reg_ok in R. unfold enough_registers, MAX_REG. replace (268435455 <=? r) with false by lia.
  destruct (zlen (f_regs fs) <=? r) eqn:L.
  - eexists. split; [reflexivity|]. split; [rewrite zlen_app, zlen_repeat; lia|]. intros n. apply reg_of_grow.
  - exists (f_regs fs). split; [destruct fs; reflexivity|]. split; [lia|]. reflexivity.
Qed.
Lemma reg_of_zset : forall l r v n, 0 <= r < zlen l -> reg_of (zset l r v) n = if n =? r then v else reg_of l n.
Proof.
  intros l r v n R. unfold reg_of. destruct (n =? r) eqn:E.
  - replace n with r by lia. rewrite znth_zset_eq by exact R. reflexivity.
  - rewrite znth_zset_neq by lia. reflexivity.
Qed.
Lemma register_rule_ok : forall c r v tv s t, reg_ok r -> rule_means c v tv -> frame_means c (s_fs s) t ->
  exists l, register_rule r v s = Ok (set_fs s (set_regs (s_fs s) l)) /\ frame_means c (set_regs (s_fs s) l) (with_reg t r tv).
Proof.
  intros c r v tv s t R V [M1 M2]. destruct (enough_ok r (s_fs s) R) as (l & E & L & G). unfold register_rule. rewrite E. cbn [obind].
  eexists. split; [reflexivity|]. split; [exact M1|]. intros n N. cbn [set_regs f_regs with_reg t_reg]. unfold upd.
  unfold reg_ok in R. rewrite reg_of_zset by lia. destruct (n =? r); [exact V|]. rewrite G. apply M2, N.
Qed.
Lemma window_save_reg : forall aw k r l n, 0 <= r -> r + Z.of_nat k <= zlen l ->
  zlen (window_save aw k r l) = zlen l /\
  reg_of (window_save aw k r l) n = if (r <=? n) && (n <? r + Z.of_nat k) then window_rule aw n else reg_of l n.
Proof.
  intros aw. induction k as [|k IH]; intros r l n R L.
  - cbn [window_save]. split; [reflexivity|]. replace ((r <=? n) && (n <? r + Z.of_nat 0)) with false by lia. reflexivity.
  - cbn [window_save]. destruct (IH (r + 1) (zset l r (window_rule aw r)) n ltac:(lia) ltac:(rewrite zlen_zset; lia)) as [A B].
    split; [rewrite A; apply zlen_zset|]. rewrite B. rewrite reg_of_zset by lia. destruct (n =? r) eqn:E.
    + replace n with r by lia. replace ((r + 1 <=? r) && (r <? r + 1 + Z.of_nat k)) with false by lia.
      replace ((r <=? r) && (r <? r + Z.of_nat (S k))) with true by lia. reflexivity.
    + replace ((r <=? n) && (n <? r + Z.of_nat (S k))) with ((r + 1 <=? n) && (n <? r + 1 + Z.of_nat k)) by lia. reflexivity.
Qed.

(* ------------------------------------------------------------------ *)
(* One instruction. *)
Lemma small_bits : forall d, 0 <= d < 64 ->
  Z.land (64 + d) 192 = 64 /\ Z.land (64 + d) 63 = d /\ Z.land (128 + d) 192 = 128 /\ Z.land (128 + d) 63 = d /\
  Z.land (192 + d) 192 = 192 /\ Z.land (192 + d) 63 = d.
Proof.
  assert (G : forallb (fun d => (Z.land (64 + d) 192 =? 64) && (Z.land (64 + d) 63 =? d) && (Z.land (128 + d) 192 =? 128) &&
             (Z.land (128 + d) 63 =? d) && (Z.land (192 + d) 192 =? 192) && (Z.land (192 + d) 63 =? d)) (map Z.of_nat (seq 0 64)) = true)
    by (vm_compute; reflexivity).
  intros d D. rewrite forallb_forall in G. specialize (G d). 
  assert (In d (map Z.of_nat (seq 0 64))) as X.
  { apply in_map_iff. exists (Z.to_nat d). split; [lia|]. apply in_seq. lia. }
  specialize (G X). rewrite !andb_true_iff, !Z.eqb_eq in G. tauto.
Qed.

(* A program of the backend only uses register and CFA rules without expressions. *)
Definition plain (i : ins) : Prop :=
  match i with SetLoc _ | DefCfaExpr _ | IExpression _ _ | IValExpression _ _ | Restore _ => False | _ => True end.
Definition ctx_ok (c : cfi) (k : cie) (x : context) : Prop :=
  x_caf x = k_caf k /\ x_daf x = k_daf k /\ x_aw x = addr_width c /\
  forall i, k_init k = Some i -> forall n, 0 <= n -> rule_means c (reg_of (f_regs i) n) (x_init x n).
Definition stack_means (c : cfi) (s : state) (t : rules) (stack : list rules) : Prop :=
  frame_means c (s_fs s) t /\ Forall2 (frame_means c) (s_prev s) stack.

Ltac opcode H :=
  unfold cfi_step; rewrite (byte_at_at _ _ _ _ H);
  cbn [obind Z.eqb Pos.eqb Z.land Pos.land Pos.Ndouble Pos.Nsucc_double Z.of_N].

Lemma step_moves : forall c k (abi : bool) mem pend p s x i b loc',
  encodes c (k_enc k) p i b -> at_ mem p b -> p + zlen b <= pend -> pend <= zlen mem ->
  (if abi then plain i else mem = c_mem c) -> pend <= c_dsize c \/ abi = true ->
  ctx_ok c k x -> moves x i (s_loc s) = Some loc' ->
  cfi_step c k abi mem pend p s = Ok (true, p + zlen b, set_loc s (u64 loc')).
Proof.
  intros c k abi mem pend p s x i b loc' E A L LM PL DS (X1 & X2 & X3 & X4) M.
  pose proof (at_bound _ _ _ A) as [P0 P1].
  destruct E; cbn [moves] in M; try discriminate M; injection M as <-; rewrite ?X1.
  - (* advance *) destruct (small_bits d H) as (B1 & B2 & _). unfold cfi_step. rewrite (byte_at_at _ _ _ _ A). cbn [obind].
    replace (64 + d =? 2) with false by lia. rewrite B1, B2. reflexivity.
  - opcode A. apply at_shift in A. rewrite (byte_at_at _ _ _ _ A). cbn [obind]. rewrite zlen_cons, (zlen_cons _ d []). change (zlen (@nil Z)) with 0.
    do 3 f_equal. lia.
  - opcode A. apply at_shift in A. rewrite zlen_cons, zlen_enc in * by lia. replace (p + 1 + 2 <=? pend) with true by lia. cbn [cfi_assert obind].
    rewrite (rd_at _ _ _ 2 d ltac:(lia) H A). cbn [obind]. do 3 f_equal. lia.
  - opcode A. apply at_shift in A. rewrite zlen_cons, zlen_enc in * by lia. replace (p + 1 + 4 <=? pend) with true by lia. cbn [cfi_assert obind].
    rewrite (rd_at _ _ _ 4 d ltac:(lia) H A). cbn [obind]. do 3 f_equal. lia.
  - opcode A. apply at_shift in A. rewrite zlen_cons, zlen_enc in * by lia. replace (p + 1 + 8 <=? pend) with true by lia. cbn [cfi_assert obind].
    rewrite (rd_at _ _ _ 8 d ltac:(lia) H A). cbn [obind]. do 3 f_equal. lia.
  - opcode A. apply at_shift in A. destruct abi; [destruct PL|]. subst mem. rewrite zlen_cons in *.
    rewrite (read_encoded_at _ _ _ a b H A ltac:(destruct DS; [lia|discriminate])). cbn [obind].
    destruct H as (ap & f & base & v & _ & _ & _ & ->). do 2 f_equal; [f_equal; lia|]. unfold set_loc. f_equal. unfold u64. rewrite Zmod_mod. reflexivity.
Qed.

Lemma step_rules : forall c k (abi : bool) mem pend p s x i b t stack t' stack',
  encodes c (k_enc k) p i b -> at_ mem p b -> p + zlen b <= pend -> pend <= zlen mem ->
  (if abi then plain i else mem = c_mem c) -> pend <= c_dsize c \/ abi = true -> pend < 2 ^ 60 ->
  ctx_ok c k x -> (forall r, i = Restore r -> k_init k <> None) -> supported x i ->
  effect x i t stack = Some (t', stack') -> stack_means c s t stack ->
  exists s', cfi_step c k abi mem pend p s = Ok (false, p + zlen b, s') /\ stack_means c s' t' stack' /\
    s_loc s' = s_loc s /\ s_same s' = s_same s /\
    (forall P : Z -> Z -> Prop, Forall (fun f => P (f_start f) (f_end f)) (s_fs s :: s_prev s) ->
       Forall (fun f => P (f_start f) (f_end f)) (s_fs s' :: s_prev s')) /\
    (i <> RestoreState -> f_start (s_fs s') = f_start (s_fs s)).
Proof.
  intros c k abi mem pend p s x i b t stack t' stack' E A L LM PL DS PE (X1 & X2 & X3 & X4) RI SU EF [M1 M2].
  pose proof (at_bound _ _ _ A) as [P0 P1].
  (* a state that differs only in CFA and registers *)
  assert (CF : forall cf, Forall2 (frame_means c) (s_prev s) stack -> 
     forall tc, cfa_means c cf tc -> forall q, p + zlen b = q ->
     exists s', Ok (false, q, set_fs s (set_cfa (s_fs s) cf)) = Ok (false, p + zlen b, s') /\ stack_means c s' (with_cfa t tc) stack /\
     s_loc s' = s_loc s /\ s_same s' = s_same s /\
     (forall P : Z -> Z -> Prop, Forall (fun f => P (f_start f) (f_end f)) (s_fs s :: s_prev s) ->
       Forall (fun f => P (f_start f) (f_end f)) (s_fs s' :: s_prev s')) /\
     (i <> RestoreState -> f_start (s_fs s') = f_start (s_fs s))).
  { intros cf _ tc T q <-. eexists. split; [reflexivity|]. split; [split; [split; [exact T|exact (proj2 M1)]|exact M2]|].
    split; [reflexivity|]. split; [reflexivity|]. split; [|reflexivity]. intros P H. inversion H; subst. constructor; assumption. }
  assert (RR : forall r v tv q, reg_ok r -> rule_means c v tv -> p + zlen b = q ->
     exists s', (s0 <- register_rule r v s ;; Ok (false, q, s0)) = Ok (false, p + zlen b, s') /\ stack_means c s' (with_reg t r tv) stack /\
     s_loc s' = s_loc s /\ s_same s' = s_same s /\
     (forall P : Z -> Z -> Prop, Forall (fun f => P (f_start f) (f_end f)) (s_fs s :: s_prev s) ->
       Forall (fun f => P (f_start f) (f_end f)) (s_fs s' :: s_prev s')) /\
     (i <> RestoreState -> f_start (s_fs s') = f_start (s_fs s))).
  { intros r v tv q R V <-. destruct (register_rule_ok c r v tv s t R V M1) as (l & -> & F). cbn [obind].
    eexists. split; [reflexivity|]. split; [split; [exact F|exact M2]|].
    split; [reflexivity|]. split; [reflexivity|]. split; [|reflexivity]. intros P H. inversion H; subst. constructor; assumption. }
  destruct E; cbn [effect] in EF; try discriminate EF; cbn [supported] in SU; rewrite ?X2 in *;
    try (rewrite zlen_cons in L); try (rewrite zlen_app in L);
    try (pose proof (uleb_len _ _ H)); try (pose proof (uleb_len _ _ H0)); try (pose proof (sleb_len _ _ H0)); try (pose proof (sleb_len _ _ H)).
  - (* def_cfa *) injection EF as <- <-. opcode A. apply at_shift in A. pose proof (at_app1 _ _ _ _ A) as A1. apply at_app2 in A.
    rewrite (uleb_at _ _ pend _ _ H A1 ltac:(lia)). cbn [obind]. replace (p + 1 + zlen x0 <? pend) with true by lia. cbn [cfi_assert obind].
    rewrite (uleb_at _ _ pend _ _ H0 A ltac:(lia)). cbn [obind]. apply CF; [exact M2| |rewrite zlen_cons, zlen_app; lia].
    cbn [cfa_means]. rewrite u64_small by (exact (uleb_of_nonneg _ _ H0)). reflexivity.
  - (* def_cfa_sf *) injection EF as <- <-. opcode A. apply at_shift in A. pose proof (at_app1 _ _ _ _ A) as A1. apply at_app2 in A.
    rewrite (uleb_at _ _ pend _ _ H A1 ltac:(lia)). cbn [obind]. replace (p + 1 + zlen x0 <? pend) with true by lia. cbn [cfi_assert obind].
    rewrite (sleb_at _ _ pend _ _ H0 A ltac:(lia)). cbn [obind]. apply CF; [exact M2| |rewrite zlen_cons, zlen_app; lia]. reflexivity.
  - (* def_cfa_register *) injection EF as <- <-. opcode A. apply at_shift in A.
    rewrite (uleb_at _ _ pend _ _ H A ltac:(lia)). cbn [obind]. apply CF; [exact M2| |rewrite zlen_cons; lia].
    destruct M1 as [M1 _]. destruct (t_cfa t); cbn [cfa_means] in *; [rewrite M1|rewrite M1|destruct M1 as (? & -> & _)|rewrite M1]; reflexivity.
  - (* def_cfa_offset *) injection EF as <- <-. opcode A. apply at_shift in A.
    rewrite (uleb_at _ _ pend _ _ H A ltac:(lia)). cbn [obind]. apply CF; [exact M2| |rewrite zlen_cons; lia].
    destruct M1 as [M1 _]. destruct (t_cfa t); cbn [cfa_means] in *; [rewrite M1|rewrite M1|destruct M1 as (? & -> & _)|rewrite M1]; try reflexivity.
    cbn [cfa_set_off]. rewrite u64_small by (exact (uleb_of_nonneg _ _ H)). reflexivity.
  - (* def_cfa_offset_sf *) injection EF as <- <-. opcode A. apply at_shift in A.
    rewrite (sleb_at _ _ pend _ _ H A ltac:(lia)). cbn [obind]. apply CF; [exact M2| |rewrite zlen_cons; lia].
    destruct M1 as [M1 _]. destruct (t_cfa t); cbn [cfa_means] in *; [rewrite M1|rewrite M1|destruct M1 as (? & -> & _)|rewrite M1]; reflexivity.
  - (* def_cfa_expression *) injection EF as <- <-. opcode A. apply at_shift in A. pose proof (at_app1 _ _ _ _ A) as A1. apply at_app2 in A.
    pose proof (zlen_nonneg _ b).
    rewrite (uleb_at _ _ pend _ _ H A1 ltac:(lia)). cbn [obind]. rewrite u64_small by lia.
    replace (zlen b <=? pend - (p + 1 + zlen x0)) with true by lia. cbn [cfi_assert obind].
    apply CF; [exact M2| |rewrite zlen_cons, zlen_app; unfold ptr_add, s64; rewrite Z.mod_small by lia; lia].
    destruct abi; [destruct PL|]. subst mem. exists (p + 1 + zlen x0). split; [reflexivity|]. split; [exact A|]. destruct DS; [lia|discriminate].
  - (* undefined *) injection EF as <- <-. opcode A. apply at_shift in A. rewrite (uleb_at _ _ pend _ _ H A ltac:(lia)). cbn [obind].
    apply RR; [exact SU|reflexivity|rewrite zlen_cons; lia].
  - (* same_value *) injection EF as <- <-. opcode A. apply at_shift in A. rewrite (uleb_at _ _ pend _ _ H A ltac:(lia)). cbn [obind].
    apply RR; [exact SU|reflexivity|rewrite zlen_cons; lia].
  - (* offset *) injection EF as <- <-. destruct (small_bits r H) as (_ & _ & B1 & B2 & _).
    unfold cfi_step. rewrite (byte_at_at _ _ _ _ A). cbn [obind]. apply at_shift in A. rewrite B1, B2.
    replace (128 + r =? 2) with false by lia. replace (128 + r =? 3) with false by lia. replace (128 + r =? 4) with false by lia.
    replace (128 + r =? 29) with false by lia. replace (128 + r =? 1) with false by lia. replace (128 + r =? 12) with false by lia.
    replace (128 + r =? 13) with false by lia. replace (128 + r =? 18) with false by lia. replace (128 + r =? 14) with false by lia.
    replace (128 + r =? 19) with false by lia. replace (128 + r =? 15) with false by lia. replace (128 + r =? 7) with false by lia.
    replace (128 + r =? 8) with false by lia. replace (128 + r =? 5) with false by lia. cbn [Z.eqb Pos.eqb].
    rewrite (uleb_at _ _ pend _ _ H0 A ltac:(lia)). cbn [obind].
    apply RR; [exact (proj1 SU)|rewrite s61_u64 by (exact (proj2 SU)); reflexivity|rewrite zlen_cons; lia].
  - (* offset_extended *) injection EF as <- <-. opcode A. apply at_shift in A. pose proof (at_app1 _ _ _ _ A) as A1. apply at_app2 in A.
    rewrite (uleb_at _ _ pend _ _ H A1 ltac:(lia)). cbn [obind]. replace (p + 1 + zlen x0 <? pend) with true by lia. cbn [cfi_assert obind].
    rewrite (uleb_at _ _ pend _ _ H0 A ltac:(lia)). cbn [obind].
    apply RR; [exact (proj1 SU)|rewrite s61_u64 by (exact (proj2 SU)); reflexivity|rewrite zlen_cons, zlen_app; lia].
  - (* offset_extended_sf *) injection EF as <- <-. opcode A. apply at_shift in A. pose proof (at_app1 _ _ _ _ A) as A1. apply at_app2 in A.
    rewrite (uleb_at _ _ pend _ _ H A1 ltac:(lia)). cbn [obind]. 
    rewrite (sleb_at _ _ pend _ _ H0 A ltac:(lia)). cbn [obind].
    apply RR; [exact (proj1 SU)|rewrite s61_u64 by (exact (proj2 SU)); reflexivity|rewrite zlen_cons, zlen_app; lia].
  - (* negative_offset_extended *) injection EF as <- <-. opcode A. apply at_shift in A. pose proof (at_app1 _ _ _ _ A) as A1. apply at_app2 in A.
    rewrite (uleb_at _ _ pend _ _ H A1 ltac:(lia)). cbn [obind]. replace (p + 1 + zlen x0 <? pend) with true by lia. cbn [cfi_assert obind].
    rewrite (uleb_at _ _ pend _ _ H0 A ltac:(lia)). cbn [obind]. rewrite u64_mul.
    apply RR; [exact (proj1 SU)|rewrite s61_u64 by (exact (proj2 SU)); reflexivity|rewrite zlen_cons, zlen_app; lia].
  - (* val_offset *) injection EF as <- <-. opcode A. apply at_shift in A. pose proof (at_app1 _ _ _ _ A) as A1. apply at_app2 in A.
    rewrite (uleb_at _ _ pend _ _ H A1 ltac:(lia)). cbn [obind]. replace (p + 1 + zlen x0 <? pend) with true by lia. cbn [cfi_assert obind].
    rewrite (uleb_at _ _ pend _ _ H0 A ltac:(lia)). cbn [obind].
    apply RR; [exact (proj1 SU)|rewrite s61_u64 by (exact (proj2 SU)); reflexivity|rewrite zlen_cons, zlen_app; lia].
  - (* val_offset_sf *) injection EF as <- <-. opcode A. apply at_shift in A. pose proof (at_app1 _ _ _ _ A) as A1. apply at_app2 in A.
    rewrite (uleb_at _ _ pend _ _ H A1 ltac:(lia)). cbn [obind]. replace (p + 1 + zlen x0 <? pend) with true by lia. cbn [cfi_assert obind].
    rewrite (sleb_at _ _ pend _ _ H0 A ltac:(lia)). cbn [obind].
    apply RR; [exact (proj1 SU)|rewrite s61_u64 by (exact (proj2 SU)); reflexivity|rewrite zlen_cons, zlen_app; lia].
  - (* register *) injection EF as <- <-. opcode A. apply at_shift in A. pose proof (at_app1 _ _ _ _ A) as A1. apply at_app2 in A.
    rewrite (uleb_at _ _ pend _ _ H A1 ltac:(lia)). cbn [obind]. replace (p + 1 + zlen x0 <? pend) with true by lia. cbn [cfi_assert obind].
    rewrite (uleb_at _ _ pend _ _ H0 A ltac:(lia)). cbn [obind].
    apply RR; [exact (proj1 SU)| |rewrite zlen_cons, zlen_app; lia]. rewrite s61_small by (exact (proj2 SU)). split; [reflexivity|exact (uleb_of_nonneg _ _ H0)].
  - (* expression *) injection EF as <- <-. opcode A. apply at_shift in A. pose proof (at_app1 _ _ _ _ A) as A1. apply at_app2 in A.
    destruct abi; [destruct PL|]. subst mem. rewrite zlen_app in L. pose proof (zlen_nonneg _ b).
    pose proof (at_app1 _ _ _ _ A) as A2. pose proof (at_app2 _ _ _ _ A) as A3.
    rewrite (uleb_at _ _ pend _ _ H A1 ltac:(lia)). cbn [obind]. replace (p + 1 + zlen x0 <? pend) with true by lia. cbn [cfi_assert obind].
    rewrite (uleb_at _ _ pend _ _ H0 A2 ltac:(lia)). cbn [obind]. rewrite u64_small by lia.
    replace (zlen b <=? pend - (p + 1 + zlen x0 + zlen y)) with true by lia. cbn [cfi_assert obind].
    apply RR; [exact SU| |rewrite zlen_cons, !zlen_app; unfold ptr_add, s64; rewrite Z.mod_small by lia; lia].
    exists (p + 1 + zlen x0), y. rewrite s61_small by (unfold off_ok; lia). split; [reflexivity|]. split; [exact H0|]. split; [exact A|].
    rewrite zlen_app. destruct DS; [lia|discriminate].
  - (* val_expression *) injection EF as <- <-. opcode A. apply at_shift in A. pose proof (at_app1 _ _ _ _ A) as A1. apply at_app2 in A.
    destruct abi; [destruct PL|]. subst mem. rewrite zlen_app in L. pose proof (zlen_nonneg _ b).
    pose proof (at_app1 _ _ _ _ A) as A2. pose proof (at_app2 _ _ _ _ A) as A3.
    rewrite (uleb_at _ _ pend _ _ H A1 ltac:(lia)). cbn [obind]. 
    rewrite (uleb_at _ _ pend _ _ H0 A2 ltac:(lia)). cbn [obind]. rewrite u64_small by lia.
    replace (zlen b <=? pend - (p + 1 + zlen x0 + zlen y)) with true by lia. cbn [cfi_assert obind].
    apply RR; [exact SU| |rewrite zlen_cons, !zlen_app; unfold ptr_add, s64; rewrite Z.mod_small by lia; lia].
    exists (p + 1 + zlen x0), y. rewrite s61_small by (unfold off_ok; lia). split; [reflexivity|]. split; [exact H0|]. split; [exact A|].
    rewrite zlen_app. destruct DS; [lia|discriminate].
  - (* restore *) injection EF as <- <-. destruct (small_bits r H) as (_ & _ & _ & _ & B1 & B2).
    destruct abi; [destruct PL|]. unfold cfi_step. rewrite (byte_at_at _ _ _ _ A). cbn [obind]. apply at_shift in A. rewrite B1, B2.
    replace (192 + r =? 2) with false by lia. replace (192 + r =? 3) with false by lia. replace (192 + r =? 4) with false by lia.
    replace (192 + r =? 29) with false by lia. replace (192 + r =? 1) with false by lia. replace (192 + r =? 12) with false by lia.
    replace (192 + r =? 13) with false by lia. replace (192 + r =? 18) with false by lia. replace (192 + r =? 14) with false by lia.
    replace (192 + r =? 19) with false by lia. replace (192 + r =? 15) with false by lia. replace (192 + r =? 7) with false by lia.
    replace (192 + r =? 8) with false by lia. replace (192 + r =? 5) with false by lia. 
    replace (192 + r =? 17) with false by lia. replace (192 + r =? 47) with false by lia. replace (192 + r =? 20) with false by lia.
    replace (192 + r =? 21) with false by lia. replace (192 + r =? 9) with false by lia. replace (192 + r =? 16) with false by lia.
    replace (192 + r =? 22) with false by lia. replace (192 + r =? 6) with false by lia. cbn [Z.eqb Pos.eqb].
    destruct (k_init k) as [i0|] eqn:KI; [|destruct (RI r eq_refl eq_refl)].
    unfold do_restore. rewrite KI. cbn [andb].
    destruct (RR r (reg_of (f_regs i0) r) (x_init x r) (p + 1) SU (X4 _ eq_refl r (proj1 H)) ltac:(reflexivity)) as (s' & R1 & R2).
    exists s'. split; [|exact R2]. unfold register_rule in R1. exact R1.
  - (* restore_extended *) injection EF as <- <-. opcode A. apply at_shift in A. rewrite (uleb_at _ _ pend _ _ H A ltac:(lia)). cbn [obind].
    destruct abi; [destruct PL|]. destruct (k_init k) as [i0|] eqn:KI; [|destruct (RI r eq_refl eq_refl)].
    unfold do_restore. rewrite KI. cbn [andb].
    destruct (RR r (reg_of (f_regs i0) r) (x_init x r) (p + 1 + zlen x0) SU (X4 _ eq_refl r ltac:(apply SU)) ltac:(rewrite zlen_cons; lia)) as (s' & R1 & R2).
    exists s'. split; [|exact R2]. unfold register_rule in R1. exact R1.
  - (* remember_state *) injection EF as <- <-. opcode A. eexists. split; [reflexivity|]. split; [split; [exact M1|constructor; [exact M1|exact M2]]|].
    split; [reflexivity|]. split; [reflexivity|]. split; [|reflexivity]. intros P Q. inversion Q; subst. constructor; [assumption|constructor; assumption].
  - (* restore_state *) opcode A. destruct stack as [|t0 st0]; [discriminate EF|]. injection EF as <- <-.
    destruct (s_prev s) as [|f0 fr] eqn:SP; [inversion M2|]. inversion M2; subst.
    eexists. split; [reflexivity|]. split; [split; assumption|].
    split; [reflexivity|]. split; [reflexivity|]. split; [|congruence]. intros P Q. inversion Q; subst. assumption.
  - (* nop *) injection EF as <- <-. opcode A. exists s. split; [reflexivity|]. split; [split; assumption|]. split; [reflexivity|]. split; [reflexivity|].
    split; [intros P Q; exact Q|reflexivity].
  - (* args_size *) injection EF as <- <-. opcode A. apply at_shift in A. rewrite (uleb_at _ _ pend _ _ H A ltac:(lia)). cbn [obind]. exists s.
    split; [rewrite zlen_cons; do 3 f_equal; lia|]. split; [split; assumption|]. split; [reflexivity|]. split; [reflexivity|].
    split; [intros P Q; exact Q|reflexivity].
  - (* window_save *) injection EF as <- <-. opcode A. destruct (enough_ok 31 (s_fs s) ltac:(unfold reg_ok; lia)) as (l & -> & LL & G). cbn [obind].
    eexists. split; [reflexivity|]. split.
    + split; [|exact M2]. split; [exact (proj1 M1)|]. intros n N. cbn [s_fs set_fs set_regs f_regs t_reg]. unfold window. rewrite X3.
      rewrite (proj2 (window_save_reg (addr_width c) 24 8 l n ltac:(lia) ltac:(lia))). change (8 + Z.of_nat 24) with 32.
      unfold window_rule. destruct ((8 <=? n) && (n <? 16)) eqn:E1; [|destruct ((16 <=? n) && (n <? 32)) eqn:E2].
      * replace ((8 <=? n) && (n <? 32)) with true by lia. replace (n <? 16) with true by lia. split; [reflexivity|lia].
      * replace ((8 <=? n) && (n <? 32)) with true by lia. replace (n <? 16) with false by lia. reflexivity.
      * replace ((8 <=? n) && (n <? 32)) with false by lia. rewrite G. apply M1, N.
    + split; [reflexivity|]. split; [reflexivity|]. split; [|reflexivity]. intros P Q. inversion Q; subst. constructor; assumption.
Qed.

(* ------------------------------------------------------------------ *)
(* The loop. *)
Lemma encodes_len : forall c e p i b, encodes c e p i b -> 1 <= zlen b.
Proof. intros c e p i b E. destruct E; rewrite zlen_cons; match goal with |- 1 <= 1 + zlen ?l => pose proof (zlen_nonneg _ l); lia end. Qed.
Lemma table_bounds : forall x fin prog loc t stack rows, table x fin loc t stack prog = Some rows -> forward rows ->
  loc <= fin /\ Forall (fun r => loc <= r_lo r /\ r_hi r <= fin) rows.
Proof.
  intros x fin. induction prog as [|i prog IH]; intros loc t stack rows T F; cbn [table] in T.
  - injection T as <-. unfold forward in F. inversion F; subst. cbn in *. split; [assumption|]. constructor; [cbn; lia|constructor].
  - destruct (moves x i loc) as [loc'|].
    + destruct (table x fin loc' t stack prog) as [rs|] eqn:E; [|discriminate]. injection T as <-. unfold forward in F. inversion F; subst. cbn in H1.
      destruct (IH _ _ _ _ E H2) as [A B]. split; [lia|]. constructor; [cbn; lia|]. eapply Forall_impl; [|exact B]. cbn. intros r R. lia.
    + destruct (effect x i t stack) as [[t' st']|]; [|discriminate]. exact (IH _ _ _ _ T F).
Qed.

Lemma encodes_prog_cons : forall c e p i is bs, encodes_prog c e p (i :: is) bs ->
  exists b r, bs = b ++ r /\ encodes c e p i b /\ encodes_prog c e (p + zlen b) is r.
Proof. intros c e p i is bs H. inversion H; subst. eauto. Qed.

Lemma loop_ok : forall err c k x i0 pend pc fin prog p bs t stack s rows fuel,
  encodes_prog c (k_enc k) p prog bs -> at_ (c_mem c) p bs -> p + zlen bs = pend -> pend <= c_dsize c -> pend < 2 ^ 60 ->
  (Z.to_nat (zlen bs) < fuel)%nat -> k_init k = Some i0 -> ctx_ok c k x -> Forall (supported x) prog ->
  table x fin (s_loc s) t stack prog = Some rows -> forward rows -> 0 <= s_loc s <= pc -> pc < fin < two64 -> 0 <= k_caf k ->
  stack_means c s t stack -> Forall (fun f => f_start f <= s_loc s /\ f_end f = fin) (s_fs s :: s_prev s) ->
  exists s' r, cfi_loop fuel err c k false (c_mem c) pend pc p s = Ok s' /\ s_same s' = s_same s /\
    In r rows /\ covers r pc /\ (forall r', In r' rows -> covers r' pc -> r' = r) /\
    frame_means c (s_fs s') (r_rules r) /\ f_end (s_fs s') = r_hi r /\ f_start (s_fs s') <= r_lo r /\
    (~ In RestoreState prog -> f_start (s_fs s) = s_loc s -> f_start (s_fs s') = r_lo r).
Proof.
  intros err c k x i0 pend pc fin. induction prog as [|i prog IH]; intros p bs t stack s rows fuel E A L D PE FU KI CX SU T F LO FI CA M FR.
  - inversion E; subst. destruct fuel as [|fuel]; [lia|]. cbn [cfi_loop]. change (zlen (@nil Z)) with 0 in *.
    replace (p <? p + 0) with false by lia. cbn [table] in T. injection T as <-.
    exists s, (Row (s_loc s) fin t). split; [reflexivity|]. split; [reflexivity|]. split; [left; reflexivity|]. split; [unfold covers; cbn; lia|].
    split; [intros r' [<-|[]] _; reflexivity|]. split; [exact (proj1 M)|]. pose proof (Forall_inv FR) as H1. cbn. split; [apply H1|]. split; [apply H1|].
    intros _ Q; exact Q.
  - apply encodes_prog_cons in E as (b0 & bs1 & -> & H3 & H5). subst pend. rename bs1 into bs. pose proof (encodes_len _ _ _ _ _ H3) as BL. pose proof (zlen_nonneg _ bs) as BL2.
    rewrite zlen_app in *. pose proof (at_bound _ _ _ A) as [P0 P1]. rewrite zlen_app in P1.
    pose proof (at_app1 _ _ _ _ A) as A1. pose proof (at_app2 _ _ _ _ A) as A2.
    destruct fuel as [|fuel]; [lia|]. cbn [cfi_loop]. replace (p <? p + (zlen b0 + zlen bs)) with true by lia.
    pose proof (Forall_inv SU) as H1. pose proof (Forall_inv_tail SU) as H2. cbn [table] in T. destruct (moves x i (s_loc s)) as [loc'|] eqn:MV.
    + destruct (table x fin loc' t stack prog) as [rs|] eqn:TT; [|discriminate]. injection T as <-. unfold forward in F. pose proof (Forall_inv F) as H4. pose proof (Forall_inv_tail F) as H6. cbn in H4.
      destruct (table_bounds _ _ _ _ _ _ _ TT H6) as [TB1 TB2].
      rewrite (step_moves c k false (c_mem c) (p + (zlen b0 + zlen bs)) p s x i b0 loc' H3 A1 ltac:(lia) ltac:(lia) eq_refl ltac:(left; lia) CX MV).
      rewrite KI. assert (U : u64 loc' = loc') by (apply u64_small; lia). rewrite U. cbn [set_loc s_loc s_fs].
      destruct (loc' <=? pc) eqn:LP.
      * destruct (IH (p + zlen b0) bs t stack (set_fs (set_loc s loc') (Frame loc' (f_end (s_fs s)) (f_cfa (s_fs s)) (f_regs (s_fs s)))) rs fuel
                    H5 A2 ltac:(lia) ltac:(lia) ltac:(lia) ltac:(lia) KI CX H2 TT H6 ltac:(cbn; lia) FI CA)
          as (s' & r & R1 & R0 & R2 & R3 & R4 & R5 & R6 & R7 & R8).
        { destruct M as [M1 M2]. split; [exact M1|exact M2]. }
        { cbn. pose proof (Forall_inv FR) as FH. cbn beta in FH. pose proof (Forall_inv_tail FR) as H8. constructor; [cbn; lia|]. eapply Forall_impl; [|exact H8]. cbn. intros f G. lia. }
        exists s', r. split; [exact R1|]. split; [exact R0|]. split; [right; exact R2|]. split; [exact R3|]. split.
        { intros r' [<-|I'] C'; [unfold covers in C'; cbn in C'; lia|]. apply R4; assumption. }
        split; [exact R5|]. split; [exact R6|]. split; [exact R7|]. intros N _. apply R8; [|reflexivity]. intros X. apply N. right. exact X.
      * eexists. exists (Row (s_loc s) loc' t). split; [reflexivity|]. split; [reflexivity|]. split; [left; reflexivity|]. split; [unfold covers; cbn; lia|]. split.
        { intros r' [<-|I'] C'; [reflexivity|]. unfold covers in C'. rewrite Forall_forall in TB2. specialize (TB2 _ I'). cbn in TB2. lia. }
        split; [exact (proj1 M)|]. cbn. pose proof (Forall_inv FR) as H8. split; [reflexivity|]. split; [apply H8|]. intros _ Q; exact Q.
    + destruct (effect x i t stack) as [[t' stack']|] eqn:EF; [|discriminate].
      destruct (step_rules c k false (c_mem c) (p + (zlen b0 + zlen bs)) p s x i b0 t stack t' stack' H3 A1 ltac:(lia) ltac:(lia) eq_refl ltac:(left; lia) PE CX
                  ltac:(intros; congruence) H1 EF M) as (s1 & S1 & S2 & S3 & S4 & S5 & S6).
      rewrite S1. cbn [obind].
      destruct (IH (p + zlen b0) bs t' stack' s1 rows fuel
                    H5 A2 ltac:(lia) ltac:(lia) ltac:(lia) ltac:(lia) KI CX H2 ltac:(rewrite S3; exact T) F ltac:(lia) FI CA S2)
          as (s' & r & R1 & R0 & R2 & R3 & R4 & R5 & R6 & R7 & R8).
      { rewrite S3. exact (S5 (fun a b => a <= s_loc s /\ b = fin) FR). }
      exists s', r. split; [exact R1|]. split; [congruence|]. split; [exact R2|]. split; [exact R3|]. split; [exact R4|].
      split; [exact R5|]. split; [exact R6|]. split; [exact R7|]. intros N Q. apply R8; [intros X; apply N; right; exact X|].
      rewrite S3, S6; [exact Q|]. intros ->. apply N. left. reflexivity.
Qed.

(* A program that does not move: the initial instructions. *)
Lemma play_ok : forall err c k x (abi : bool) mem pend pc prog p bs t stack s t' fuel,
  encodes_prog c (k_enc k) p prog bs -> at_ mem p bs -> p + zlen bs = pend -> pend <= c_dsize c \/ abi = true -> pend < 2 ^ 60 ->
  (if abi then Forall plain prog else mem = c_mem c) ->
  (Z.to_nat (zlen bs) < fuel)%nat -> k_init k = None -> ctx_ok c k x -> Forall (supported x) prog ->
  play x t stack prog = Some t' -> stack_means c s t stack ->
  exists s', cfi_loop fuel err c k abi mem pend pc p s = Ok s' /\ frame_means c (s_fs s') t' /\ s_same s' = s_same s.
Proof.
  intros err c k x abi mem pend pc. induction prog as [|i prog IH]; intros p bs t stack s t' fuel E A L D PE PL FU KI CX SU T M.
  - inversion E; subst. destruct fuel as [|fuel]; [lia|]. cbn [cfi_loop]. change (zlen (@nil Z)) with 0 in *.
    replace (p <? p + 0) with false by lia. injection T as <-. exists s. split; [reflexivity|]. split; [exact (proj1 M)|reflexivity].
  - apply encodes_prog_cons in E as (b0 & bs1 & -> & H3 & H5). subst pend. rename bs1 into bs. pose proof (encodes_len _ _ _ _ _ H3) as BL. pose proof (zlen_nonneg _ bs) as BL2.
    rewrite zlen_app in *. pose proof (at_bound _ _ _ A) as [P0 P1]. rewrite zlen_app in P1.
    pose proof (at_app1 _ _ _ _ A) as A1. pose proof (at_app2 _ _ _ _ A) as A2.
    destruct fuel as [|fuel]; [lia|]. cbn [cfi_loop]. replace (p <? p + (zlen b0 + zlen bs)) with true by lia.
    pose proof (Forall_inv SU) as H1. pose proof (Forall_inv_tail SU) as H2.
    assert (T2 : exists t1 st1, effect x i t stack = Some (t1, st1) /\ play x t1 st1 prog = Some t' /\ forall r, i <> Restore r).
    { cbn [play] in T. destruct i; try discriminate T;
        (destruct (effect x _ t stack) as [[t1 st1]|] eqn:EF; [|discriminate T]; exists t1, st1; split; [reflexivity|]; split; [exact T|]; intros ?; discriminate). }
    destruct T2 as (t1 & st1 & EF & T2 & NR).
    destruct (step_rules c k abi mem (p + (zlen b0 + zlen bs)) p s x i b0 t stack t1 st1 H3 A1 ltac:(lia) ltac:(lia)) as (s1 & S1 & S2 & S3 & S4 & S5 & S6).
    { destruct abi; [inversion PL; assumption|exact PL]. } { exact D. } { exact PE. } { exact CX. } { intros r ->. destruct (NR r eq_refl). } { exact H1. } { exact EF. } { exact M. }
    rewrite S1. cbn [obind].
    destruct (IH (p + zlen b0) bs t1 st1 s1 t' fuel H5 A2 ltac:(lia) ltac:(assumption) ltac:(lia)) as (s' & R1 & R2 & R3); try assumption.
    { destruct abi; [inversion PL; assumption|exact PL]. } { lia. }
    exists s'. split; [exact R1|]. split; [exact R2|congruence].
Qed.
