(* The registers of a frame, and the loop over them. *)
From Coq Require Import ZifyBool ZifyNat.
From Verif Require Import Base LebModel DwModel Slice LebProof CfiModel CfiSpec CfiProps LocModel EvalModel EvalSpec EvalProof Eval2Proof Eval3Proof Eval4Proof Eval5Proof UnwindModel UnwindSpec UnwindProof Unwind2Proof.

(* ---------------------------------------------------------------- registers *)
Definition cut (b : ebl) (v : Z) : Z := if b_class32 b then v mod two32 else v.
Lemma reg_set_ok : forall b g n v, regs_ok b g -> word v ->
  match b_regno b n with
  | Some k => if b_nregs b <=? k then reg_set b g n v = Ok None
              else exists g', reg_set b g n v = Ok (Some g') /\ regs_ok b g' /\
                   forall r, known b g' r = if match b_regno b r with Some k' => k' =? k | None => false end then Some (cut b v) else known b g r
  | None => reg_set b g n v = Ok None
  end.
Proof.
  intros b g n v (N & L3 & LV & FV & FS & NN) W. unfold reg_set. destruct (b_regno b n) as [k|] eqn:K; [|reflexivity]. specialize (NN n k K) as K0. destruct (b_nregs b <=? k) eqn:E; [reflexivity|].
  assert (0 <= k / 64 < 3) by (split; [apply Z.div_pos; lia|apply Z.div_lt_upper_bound; lia]).
  destruct (znth_in _ (g_set g) (k / 64) ltac:(lia)) as [w Q]. rewrite Q. replace (k <? zlen (g_val g)) with true by lia.
  assert (CU : (if b_class32 b then Z.land v 4294967295 else v) = cut b v).
  { unfold cut. destruct (b_class32 b); [|reflexivity]. change 4294967295 with (Z.ones 32). rewrite Z.land_ones by lia. reflexivity. }
  rewrite CU. assert (WC : 0 <= cut b v < two64). { unfold cut. unfold word in W. destruct (b_class32 b); [|lia]. pose proof (Z.mod_pos_bound v two32 ltac:(lia)). lia. }
  set (cv := cut b v) in *. clearbody cv. assert (W0 : 0 <= w) by (apply znth_In in Q; rewrite Forall_forall in FS; exact (FS w Q)).
  eexists. split; [reflexivity|]. split.
  - split; [exact N|]. cbn [g_set g_val]. split; [rewrite zlen_zset; exact L3|]. split; [rewrite zlen_zset; exact LV|].
    assert (FZ : forall A (P : A -> Prop) l i x, Forall P l -> P x -> Forall P (zset l i x)).
    { intros A P l i x F X. unfold zset. destruct (_ && _); [|exact F]. apply Forall_app. split; [apply Forall_forall; intros y Y; rewrite Forall_forall in F; apply F; rewrite <- (firstn_skipn (Z.to_nat i) l); apply in_or_app; left; exact Y|].
      constructor; [exact X|]. apply Forall_forall; intros y Y. rewrite Forall_forall in F. apply F. rewrite <- (firstn_skipn (S (Z.to_nat i)) l). apply in_or_app. right. exact Y. }
    split; [apply FZ; [exact FV|exact WC]|]. split; [apply FZ; [exact FS|]|exact NN]. apply Z.lor_nonneg. split; [exact W0|apply Z.pow_nonneg; lia].
  - intros r. unfold known. cbn [g_set g_val]. destruct (b_regno b r) as [k'|] eqn:K'; [|reflexivity]. specialize (NN r k' K'). destruct (Z.eqb_spec k' k) as [->|NE].
    + replace (k <? b_nregs b) with true by lia. rewrite znth_zset_eq by lia. rewrite Z.lor_spec, Z.pow2_bits_true by (apply Z.mod_pos_bound; lia). rewrite orb_true_r. cbn [andb]. apply znth_zset_eq. lia.
    + rewrite (znth_zset_neq _ (g_val g)) by lia. f_equal.
      destruct (Z.eq_dec (k / 64) (k' / 64)) as [D|D].
      * rewrite <- D, znth_zset_eq by lia. rewrite Q. rewrite Z.lor_spec, Z.pow2_bits_false, orb_false_r; [reflexivity|]. intros MM. apply NE. rewrite (Z.div_mod k 64), (Z.div_mod k' 64) by lia. congruence.
      * rewrite znth_zset_neq by exact D. reflexivity.
Qed.
Lemma new_regs_ok : forall b, 0 <= b_nregs b <= 192 -> (forall r k, b_regno b r = Some k -> 0 <= k) -> regs_ok b (new_regs b) /\ forall r, known b (new_regs b) r = None.
Proof.
  intros b N NN. split.
  - split; [exact N|]. split; [reflexivity|]. cbn [new_regs g_set g_val]. split; [rewrite zlen_repeat; lia|]. split; [apply Forall_forall; intros x X; apply repeat_spec in X; subst; unfold is_u64; lia|]. split; [repeat constructor; lia|exact NN].
  - intros r. unfold known. destruct (b_regno b r) as [k|] eqn:K; [|reflexivity]. specialize (NN r k K). cbn [new_regs g_set g_val]. destruct (k <? b_nregs b) eqn:E; [|reflexivity]. cbn [andb].
    assert (0 <= k / 64 < 3) by (split; [apply Z.div_pos; lia|apply Z.div_lt_upper_bound; lia]).
    replace (match znth [0; 0; 0] (k / 64) with Some w => Z.testbit w (k mod 64) | None => false end) with false; [reflexivity|].
    destruct (znth [0; 0; 0] (k / 64)) as [w|] eqn:Q; [|reflexivity]. apply znth_In in Q. cbn in Q. assert (w = 0) as -> by (destruct Q as [Q|[Q|[Q|[]]]]; auto). symmetry. apply Z.testbit_0_l.
Qed.

(* only a block is an expression *)
Lemma block_only : forall c same fs n rep b vl, 0 <= n -> frame_register c same fs n = Ok rep -> report_means c 0 rep = ByExpr b vl -> exists p k, rep = Block p k vl.
Proof.
  intros c same fs n rep b vl N FR BX. unfold frame_register in FR. replace (n <? 0) with false in FR by lia. destruct (znth (f_regs fs) n) as [[]|].
  - destruct same; injection FR as <-; discriminate BX.
  - injection FR as <-; discriminate BX.
  - injection FR as <-; discriminate BX.
  - injection FR as <-. destruct (v =? 0); discriminate BX.
  - injection FR as <-. destruct (v =? 0); discriminate BX.
  - injection FR as <-. discriminate BX.
  - match type of FR with obind ?g _ = _ => destruct g as [[k q]| | |] end; cbn [obind] in FR; try discriminate. injection FR as <-. cbn [report_means] in BX. destruct (_ && _); [|discriminate]. injection BX as _ <-. eauto.
  - match type of FR with obind ?g _ = _ => destruct g as [[k q]| | |] end; cbn [obind] in FR; try discriminate. injection FR as <-. cbn [report_means] in BX. destruct (_ && _); [|discriminate]. injection BX as _ <-. eauto.
  - destruct same; injection FR as <-; discriminate BX.
Qed.
(* ---------------------------------------------------------------- one register *)
Section LOOP.
Variables (m : mach) (c : cfi) (e : env) (fs : frame) (same : bool) (t : rules) (cra : Z).
Hypothesis FIT : fits m (c_c32 c) e.
Hypothesis SZ : zlen (c_mem c) < 2 ^ 62.
Hypothesis DS : c_dsize c <= zlen (c_mem c).
Hypothesis CR : cfa_reported c fs (t_cfa t).
Hypothesis RR : forall n, 0 <= n -> register_reported c same fs n (t_reg t n).
Hypothesis PL : plain_rules c t.
Hypothesis MK : 0 <= b_mask (h_ebl m).
Let big := h_big m.
Let b := h_ebl m.
Let ra := match b_regno b (u32 cra) with Some r => r | None => u32 cra end.
Let has n v := caller_within big c e same t n v.
Let is_ra n := match b_regno b n with Some r => r =? ra | None => false end.

Lemma has_word : forall n v, 0 <= n < two32 -> has n v -> word v.
Proof using FIT SZ DS CR RR PL.
  clear is_ra ra. intros n v N H. unfold has, caller_within in H. pose proof (proj2 PL n) as PR. assert (KW : forall r x, 0 <= r < two32 -> v_reg e r = Some x -> word x).
  { intros r x R V. destruct FIT as (RO & VR & _). rewrite (VR r R) in V. exact (known_word _ _ _ _ RO V). }
  assert (RW : forall a x, reads e (v_asize e) a x -> word x). { intros a x. destruct FIT as (_ & _ & _ & AS & _). apply reads_word. rewrite AS. destruct (c_c32 c); lia. }
  assert (EX : forall b0 vl, t_reg t n = (if vl : bool then ValExpression b0 else Expression b0) -> (exists l, expression c b0 l /\ yields_within e true big (cfa_within big c e t) (reg_program b0 vl l) v) -> word v).
  { intros b0 vl TR (l & EX & Y). destruct (RR n ltac:(lia)) as (rep & FR & RM). pose proof (RM 0 ltac:(lia)) as RM0. 
    assert (SF : exists ops, stands_for ops (reg_program b0 vl l)).
    { assert (BX : report_means c 0 rep = ByExpr b0 vl) by (rewrite RM0, TR; destruct vl; reflexivity). clear RM0 RM TR. destruct (block_only c same fs n rep b0 vl ltac:(lia) FR BX) as (p & k & ->). cbn [report_means] in BX.
      - destruct ((0 <=? p) && (p + k <=? c_dsize c)) eqn:IN; [|discriminate]. injection BX as BB.
        assert (BP : 0 < zlen b0). { destruct EX as (xs & NE & _ & _ & -> & _). destruct xs as [|x xs]; [congruence|]. rewrite expr_cons. pose proof (op_bytes_pos x). pose proof (zlen_nonneg _ (LocSpec.expr_bytes xs)). lia. }
        assert (K0 : 0 <= k). { destruct (Z.ltb_spec k 0); [|lia]. exfalso. unfold zsub in BB. replace (Z.to_nat k) with O in BB by lia. cbn in BB. subst b0. cbn in BP. lia. }
        assert (LB : zlen b0 = k) by (rewrite <- BB; apply zsub_length; lia).
        assert (A : at_ (c_mem c) p b0) by (split; [lia|]; split; [lia|]; rewrite LB; exact BB).
        destruct (decode_expr c b0 l p true vl EX A SZ) as (ops & _ & _ & SF). exists ops. exact SF. }
    destruct SF as (ops & SF). apply (within_words m (c_c32 c) e true (cfa_value m c fs) (cfa_within big c e t) ops (reg_program b0 vl l) v FIT); [|apply cfa_word with (m := m) (fs := fs); assumption|exact SF|exact Y].
    apply cfa_iff; assumption. }
  destruct (t_reg t n) as [| | |k|k|r|b0|b0] eqn:TR; cbn [caller plain_rule] in *.
  - destruct H as [_ H]. exact (KW n v N H).
  - destruct H.
  - exact (KW n v N H).
  - destruct H as (x & _ & H). exact (RW _ _ H).
  - destruct H as (x & _ & ->). unfold word. apply Z.mod_pos_bound. lia.
  - exact (KW r v PR H).
  - exact (EX b0 false eq_refl H).
  - exact (EX b0 true eq_refl H).
Qed.

Lemma one_ok : forall n g rs un st', 0 <= n < two32 -> regs_ok b g ->
  one m c same fs cra ra n (g, rs, un) = Ok st' ->
  (gone same (t_reg t n) /\ st' = (g, rs, un || (n =? ra))) \/
  (~ gone same (t_reg t n) /\ (forall v, ~ has n v) /\ st' = (g, rs, un)) \/
  (exists v, has n v /\ ~ gone same (t_reg t n) /\
    (rs && negb (n =? cra) && is_ra n = true /\ st' = (g, rs, un) \/
     rs && negb (n =? cra) && is_ra n = false /\
       match b_regno b n with
       | Some k => if b_nregs b <=? k then st' = (g, rs, un)
                   else exists g', st' = (g', rs || is_ra n, un) /\ regs_ok b g' /\
                     forall r, known b g' r = if match b_regno b r with Some k' => k' =? k | None => false end then Some (kept b cra n v) else known b g r
       | None => st' = (g, rs, un)
       end)).
Proof using FIT SZ DS CR RR PL MK.
  intros n g rs un st' N RO H. destruct (value_iff m c e fs same t FIT SZ DS CR RR PL n N) as (o & FE & GO & VA). unfold one in H. fold (fetch c fs same n) in H. rewrite FE in H.
  assert (TAIL : forall v, has n v -> ~ gone same (t_reg t n) ->
    (let v := if n =? cra then Z.land v (b_mask b) else v in
     if rs && negb (n =? cra) && is_ra n then Ok (g, rs, un)
     else o <- reg_set b g n v ;; match o with None => Ok (g, rs, un) | Some g => Ok (g, rs || is_ra n, un) end) = Ok st' ->
    exists v, has n v /\ ~ gone same (t_reg t n) /\
    (rs && negb (n =? cra) && is_ra n = true /\ st' = (g, rs, un) \/
     rs && negb (n =? cra) && is_ra n = false /\
       match b_regno b n with
       | Some k => if b_nregs b <=? k then st' = (g, rs, un)
                   else exists g', st' = (g', rs || is_ra n, un) /\ regs_ok b g' /\
                     forall r, known b g' r = if match b_regno b r with Some k' => k' =? k | None => false end then Some (kept b cra n v) else known b g r
       | None => st' = (g, rs, un)
       end)).
  { intros v HV NG T. exists v. split; [exact HV|]. split; [exact NG|]. cbv zeta in T. destruct (rs && negb (n =? cra) && is_ra n); [left; split; [reflexivity|congruence]|right; split; [reflexivity|]].
    assert (W : word (if n =? cra then Z.land v (b_mask b) else v)).
    { pose proof (has_word n v N HV) as W. unfold word in *. destruct (n =? cra); [|exact W]. split; [apply Z.land_nonneg; lia|]. eapply Z.le_lt_trans; [|apply W].
      rewrite (Z.land_comm v). assert (X : Z.ldiff v (b_mask b) + Z.land (b_mask b) v = v). { rewrite Z.add_comm, (Z.land_comm (b_mask b)). rewrite Z.add_nocarry_lxor; [|apply Z.bits_inj'; intros k K; rewrite !Z.land_spec, Z.ldiff_spec, Z.bits_0; destruct (Z.testbit v k), (Z.testbit (b_mask b) k); reflexivity]. apply Z.bits_inj'. intros k K. rewrite Z.lxor_spec, Z.land_spec, Z.ldiff_spec. destruct (Z.testbit v k), (Z.testbit (b_mask b) k); reflexivity. }
      pose proof (proj2 (Z.ldiff_nonneg v (b_mask b)) (or_introl (proj1 W))). lia. }
    pose proof (reg_set_ok b g n _ RO W) as RS. destruct (b_regno b n) as [k|]; [destruct (b_nregs b <=? k)|].
    - rewrite RS in T. cbn [obind] in T. congruence.
    - destruct RS as (g' & E & RO' & KN). rewrite E in T. cbn [obind] in T. exists g'. split; [congruence|]. split; [exact RO'|exact KN].
    - rewrite RS in T. cbn [obind] in T. congruence. }
  destruct o as [[|o0 ol]|].
  - left. split; [apply GO; reflexivity|]. injection H as <-. reflexivity.
  - right. assert (NG : ~ gone same (t_reg t n)) by (intros G; apply GO in G; discriminate). specialize (VA ltac:(discriminate)). unfold compute in VA.
    destruct (eval m (c_c32 c) (cfa_ops c fs) (o0 :: ol)) as [v|x| |] eqn:EV; try discriminate H.
    + right. apply (TAIL v); [apply VA; reflexivity|exact NG|exact H].
    + left. split; [exact NG|]. split; [intros v HV; apply VA in HV; discriminate|congruence].
  - right. assert (NG : ~ gone same (t_reg t n)) by (intros G; apply GO in G; discriminate). specialize (VA ltac:(discriminate)). unfold compute in VA.
    destruct (get_reg (h_ebl m) (h_regs m) n) as [v|x| |] eqn:EV; try discriminate H.
    + right. apply (TAIL v); [apply VA; reflexivity|exact NG|exact H].
    + left. split; [exact NG|]. split; [intros v HV; apply VA in HV; discriminate|congruence].
Qed.

Lemma has_unique : forall n v w, 0 <= n < two32 -> has n v -> has n w -> v = w.
Proof using FIT SZ DS CR RR PL.
  clear is_ra ra. intros n v w N V W. destruct (value_iff m c e fs same t FIT SZ DS CR RR PL n N) as (o & _ & GO & VA).
  assert (NE : o <> Some []). { intros E. apply GO in E. unfold has, caller_within in V. destruct (t_reg t n); cbn [gone caller] in *; try exact E; try exact V. rewrite E in V. destruct V. discriminate. }
  specialize (VA NE). apply VA in V, W. congruence.
Qed.
Lemma gone_has : forall n v, gone same (t_reg t n) -> ~ has n v.
Proof using. clear CR RR PL. intros n v G V. unfold has, caller_within in V. destruct (t_reg t n); cbn [gone caller] in *; try exact G; try exact V. rewrite G in V. destruct V. discriminate. Qed.
Definition loop_inv (i : Z) (st : regs * bool * bool) : Prop :=
  let '(g, rs, un) := st in
  regs_ok b g /\
  (forall n v k, 0 <= n < i -> alone b n -> b_regno b n = Some k -> k < b_nregs b -> known b g n = Some v <-> exists w, has n w /\ v = kept b cra n w) /\
  (forall n v, known b g n = Some v -> exists n' w, 0 <= n' < i /\ b_regno b n' = b_regno b n /\ has n' w /\ v = kept b cra n' w) /\
  (rs = true -> exists n', 0 <= n' < i /\ b_regno b n' = Some ra) /\
  (forall w k, 0 <= cra < i -> has cra w -> b_regno b cra = Some k -> k < b_nregs b -> known b g cra = Some (kept b cra cra w) /\ rs = true) /\
  (un = true <-> 0 <= ra < i /\ gone same (t_reg t ra)).
Lemma inv_step : forall n st st', 0 <= n < b_nregs b -> loop_inv n st -> one m c same fs cra ra n st = Ok st' -> loop_inv (n + 1) st'.
Proof using FIT SZ DS CR RR PL MK.
  intros n [[g rs] un] st' N (RO & A & B & C & D & E) H. pose proof RO as (NR & _ & _ & _ & _ & NN). assert (N2 : 0 <= n < two32) by lia.
  assert (RACRA : forall k, 0 <= cra < b_nregs b -> b_regno b cra = Some k -> ra = k). { intros k CC K. unfold ra. replace (u32 cra) with cra by (unfold u32; rewrite Z.mod_small; lia). rewrite K. reflexivity. }
  assert (NONE : (forall v, ~ has n v) -> forall un', (un' = true <-> 0 <= ra < n + 1 /\ gone same (t_reg t ra)) -> loop_inv (n + 1) (g, rs, un')).
  { intros NH un' U. split; [exact RO|]. split; [|split; [|split; [|split; [|exact U]]]].
    - intros n0 v k I0 AL K KL. destruct (Z.eq_dec n0 n) as [->|NE]; [|apply (A n0 v k); try assumption; lia]. split; [|intros (w & W & _); exfalso; exact (NH w W)].
      intros V. exfalso. destruct (B n v V) as (n' & w & I' & R' & _). assert (n' = n) by (apply AL; [lia|exact R']). lia.
    - intros n0 v V. destruct (B n0 v V) as (n' & w & I' & X). exists n', w. split; [lia|exact X].
    - intros R. destruct (C R) as (n' & I' & X). exists n'. split; [lia|exact X].
    - intros w k I0 W. destruct (Z.eq_dec cra n) as [->|NE]; [exfalso; exact (NH w W)|]. apply D; [lia|exact W]. }
  destruct (one_ok n g rs un st' N2 RO H) as [[G ->]|[(NG & NH & ->)|(v & HV & NG & X)]].
  - apply NONE; [intros v V; exact (gone_has n v G V)|]. rewrite orb_true_iff, E. split; [intros [[I0 GR]|Q]; [split; [lia|exact GR]|assert (n = ra) as <- by lia; split; [lia|exact G]]|].
    intros [I0 GR]. destruct (Z.eq_dec n ra); [right; lia|left; split; [lia|exact GR]].
  - apply NONE; [exact NH|]. rewrite E. split; [intros [I0 GR]; split; [lia|exact GR]|]. intros [I0 GR]. split; [|exact GR]. destruct (Z.eq_dec n ra) as [->|]; [exfalso; exact (NG GR)|lia].
  - assert (U : un = true <-> 0 <= ra < n + 1 /\ gone same (t_reg t ra)). { rewrite E. split; [intros [I0 GR]; split; [lia|exact GR]|]. intros [I0 GR]. split; [|exact GR]. destruct (Z.eq_dec n ra) as [->|]; [exfalso; exact (NG GR)|lia]. }
    assert (SKIP : (forall k, b_regno b n = Some k -> k < b_nregs b -> ~ alone b n /\ n <> cra) -> loop_inv (n + 1) (g, rs, un)).
    { intros SK. split; [exact RO|]. split; [|split; [|split; [|split; [|exact U]]]].
      - intros n0 v0 k I0 AL K KL. destruct (Z.eq_dec n0 n) as [->|NE]; [|apply (A n0 v0 k); try assumption; lia]. exfalso. exact (proj1 (SK k K KL) AL).
      - intros n0 v0 V. destruct (B n0 v0 V) as (n' & w & I' & X0). exists n', w. split; [lia|exact X0].
      - intros R. destruct (C R) as (n' & I' & X0). exists n'. split; [lia|exact X0].
      - intros w k I0 W K KL. destruct (Z.eq_dec cra n) as [Q|NE]; [|apply (D w k); try assumption; lia]. rewrite Q in K. exfalso. exact (proj2 (SK k K KL) (eq_sym Q)). }
    destruct X as [[T ->]|[T X]].
    + apply SKIP. intros k K KL. assert (T1 : rs = true /\ n <> cra /\ is_ra n = true) by (destruct rs, (Z.eqb_spec n cra), (is_ra n); cbn in T; try discriminate; auto). destruct T1 as (R & NC & IR). split; [|exact NC].
      intros AL. destruct (C R) as (n' & I' & R'). assert (n' = n); [|lia]. apply AL; [lia|]. unfold is_ra in IR. rewrite K in IR |- *. rewrite R'. f_equal. lia.
    + destruct (b_regno b n) as [k|] eqn:K; [|subst st'; apply SKIP; intros; congruence]. destruct (b_nregs b <=? k) eqn:KL; [subst st'; apply SKIP; intros k' Q L; injection Q as <-; lia|].
      destruct X as (g' & -> & RO' & KN). assert (KNN : known b g' n = Some (kept b cra n v)) by (rewrite KN, K, Z.eqb_refl; reflexivity).
      assert (IRN : is_ra n = (k =? ra)) by (unfold is_ra; rewrite K; reflexivity).
      split; [exact RO'|]. split; [|split; [|split; [|split; [|exact U]]]].
      * intros n0 v0 k0 I0 AL K0 KL0. destruct (Z.eq_dec n0 n) as [->|NE].
        -- rewrite KNN. split; [intros Q; injection Q as <-; exists v; auto|]. intros (w & W & ->). rewrite (has_unique n w v N2 W HV). reflexivity.
        -- rewrite KN, K0. destruct (Z.eqb_spec k0 k) as [->|NK]; [exfalso; apply NE; symmetry; apply AL; [lia|congruence]|]. apply (A n0 v0 k0); try assumption. lia.
      * intros n0 v0 V. rewrite KN in V. destruct (b_regno b n0) as [k0|] eqn:K0; [destruct (Z.eqb_spec k0 k) as [->|NK]|].
        -- injection V as <-. exists n, v. split; [lia|]. split; [exact K|]. split; [exact HV|reflexivity].
        -- destruct (B n0 v0 V) as (n' & w & I' & X0). rewrite K0 in X0. exists n', w. split; [lia|exact X0].
        -- destruct (B n0 v0 V) as (n' & w & I' & X0). rewrite K0 in X0. exists n', w. split; [lia|exact X0].
      * intros R. destruct rs; [destruct (C eq_refl) as (n' & I' & X0); exists n'; split; [lia|exact X0]|]. cbn [orb] in R. exists n. split; [lia|]. rewrite K. f_equal. lia.
      * intros w k0 I0 W K0 KL0. destruct (Z.eq_dec cra n) as [Q|NE].
        -- rewrite Q in W |- *. rewrite KNN. split; [rewrite (has_unique n w v N2 W HV); rewrite Q; reflexivity|]. rewrite Q in K0. rewrite IRN, (RACRA k) by (rewrite ?Q; auto; lia). rewrite Z.eqb_refl. apply orb_true_r.
        -- destruct (D w k0 ltac:(lia) W K0 KL0) as [D1 D2]. rewrite KN, K0. split; [|rewrite D2; reflexivity]. destruct (Z.eqb_spec k0 k) as [->|NK]; [|exact D1]. exfalso.
           rewrite IRN, (RACRA k ltac:(lia) K0), Z.eqb_refl, D2 in T. replace (n =? cra) with false in T by lia. discriminate T.
Qed.
Lemma each_ok : forall j n st st', 0 <= n -> n + Z.of_nat j <= b_nregs b -> loop_inv n st -> each j m c same fs cra ra n st = Ok st' -> loop_inv (n + Z.of_nat j) st'.
Proof using FIT SZ DS CR RR PL MK.
  induction j as [|j IH]; intros n st st' N L I0 H; cbn [each] in H; [injection H as <-; replace (n + Z.of_nat 0) with n by lia; exact I0|].
  destruct (one m c same fs cra ra n st) as [st1| | |] eqn:O; cbn [obind] in H; try discriminate. replace (n + Z.of_nat (S j)) with (n + 1 + Z.of_nat j) by lia. apply (IH (n + 1) st1); [lia|lia| |exact H]. apply (inv_step n st); [lia|exact I0|exact O].
Qed.
Lemma all_ok : forall st, each (Z.to_nat (b_nregs b)) m c same fs cra ra 0 (new_regs b, false, false) = Ok st -> loop_inv (b_nregs b) st.
Proof using FIT SZ DS CR RR PL MK.
  intros st H. destruct FIT as ((NR & _ & _ & _ & _ & NN) & _). fold b in NR, NN. apply (each_ok _ 0) in H; [replace (0 + Z.of_nat (Z.to_nat (b_nregs b))) with (b_nregs b) in H by lia; exact H|lia|lia|].
  destruct (new_regs_ok b NR NN) as [RO KN]. split; [exact RO|]. split; [intros; lia|]. split; [intros n v V; rewrite KN in V; discriminate|]. split; [discriminate|]. split; [intros; lia|]. split; [discriminate|lia].
Qed.
Hypothesis RD : rules_defined big c e t.
Lemma one_good : forall n st, 0 <= n < b_nregs b -> loop_inv n st -> good (one m c same fs cra ra n st).
Proof using FIT SZ DS CR RR PL MK RD.
  intros n [[g rs] un] N (RO & _). pose proof RO as (NR & _). assert (N2 : 0 <= n < two32) by lia. destruct (value_iff m c e fs same t FIT SZ DS CR RR PL n N2) as (o & FE & GO & VA).
  pose proof (compute_good m c e fs same t FIT SZ DS CR RR PL RD n o N2 FE) as CG. unfold one. fold (fetch c fs same n). rewrite FE.
  assert (TAIL : forall v, has n v -> good (let v := if n =? cra then Z.land v (b_mask b) else v in
     if rs && negb (n =? cra) && is_ra n then Ok (g, rs, un)
     else o <- reg_set b g n v ;; match o with None => Ok (g, rs, un) | Some g => Ok (g, rs || is_ra n, un) end)).
  { intros v HV. cbv zeta. destruct (_ && _ && _); [exact Logic.I|]. unfold reg_set. destruct (b_regno b n) as [k|] eqn:K; [|exact Logic.I]. destruct RO as (_ & L3 & LV & _ & _ & NN). specialize (NN n k K).
    destruct (b_nregs b <=? k) eqn:E; [exact Logic.I|]. assert (0 <= k / 64 < 3) by (split; [apply Z.div_pos; lia|apply Z.div_lt_upper_bound; lia]). destruct (znth_in _ (g_set g) (k / 64) ltac:(lia)) as [w Q]. rewrite Q. replace (k <? zlen (g_val g)) with true by lia. exact Logic.I. }
  destruct o as [[|o0 ol]|]; [exact Logic.I| |]; specialize (VA ltac:(discriminate)); unfold compute in *.
  - destruct (eval m (c_c32 c) (cfa_ops c fs) (o0 :: ol)) as [v|x| |]; [|exact Logic.I|exact CG|exact CG]. apply (TAIL v). apply VA. reflexivity.
  - destruct (get_reg (h_ebl m) (h_regs m) n) as [v|x| |]; [|exact Logic.I|exact CG|exact CG]. apply (TAIL v). apply VA. reflexivity.
Qed.
Lemma one_never_err : forall n st x, 0 <= n < b_nregs b -> loop_inv n st -> one m c same fs cra ra n st <> Err x.
Proof using FIT.
  intros n [[g rs] un] x N (RO & _) H. unfold one in H. destruct (r <- frame_register c same fs n ;; rep_ops c true r) as [[[|o0 ol]|]| | |]; try discriminate H.
  - destruct (eval m (c_c32 c) (cfa_ops c fs) (o0 :: ol)); try discriminate H. destruct (rs && _ && _); [discriminate H|]. unfold reg_set in H. fold b in H. destruct (b_regno b n) as [k|]; [|discriminate H]. destruct (b_nregs b <=? k); [discriminate H|]. destruct (znth (g_set g) (k / 64)); [|discriminate H]. destruct (k <? zlen (g_val g)); discriminate H.
  - destruct (get_reg (h_ebl m) (h_regs m) n); try discriminate H. destruct (rs && _ && _); [discriminate H|]. unfold reg_set in H. fold b in H. destruct (b_regno b n) as [k|]; [|discriminate H]. destruct (b_nregs b <=? k); [discriminate H|]. destruct (znth (g_set g) (k / 64)); [|discriminate H]. destruct (k <? zlen (g_val g)); discriminate H.
Qed.
Lemma each_good : forall j n st, 0 <= n -> n + Z.of_nat j <= b_nregs b -> loop_inv n st -> exists st', each j m c same fs cra ra n st = Ok st'.
Proof using FIT SZ DS CR RR PL MK RD.
  induction j as [|j IH]; intros n st N L I0; cbn [each]; [eauto|]. pose proof (one_good n st ltac:(lia) I0) as G. pose proof (one_never_err n st) as NE. destruct (one m c same fs cra ra n st) as [st1|x| |] eqn:O; cbn [obind] in *; [|exfalso; exact (NE x ltac:(lia) I0 eq_refl)|destruct G|destruct G].
  apply (IH (n + 1) st1); [lia|lia|]. apply (inv_step n st); [lia|exact I0|exact O].
Qed.
End LOOP.
