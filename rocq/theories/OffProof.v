From Verif Require Import Base OffModel OffSpec.

Lemma pw_pos : forall a, pw a -> 0 < a.
Proof. intros a (k & K & ->). apply Z.pow_pos_nonneg; lia. Qed.
Lemma pw_lt : forall a, pw a -> a < two64.
Proof. intros a (k & K & ->). change two64 with (2 ^ 64). apply Z.pow_lt_mono_r; lia. Qed.
Lemma pw_le : forall a b, pw a -> pw b -> a <= b -> (a | b).
Proof.
  intros a b (k & K & ->) (j & J & ->) L. assert (k <= j). { destruct (Z.le_gt_cases k j) as [H|H]; [exact H|]. exfalso. assert (2 ^ j < 2 ^ k) by (apply Z.pow_lt_mono_r; lia). lia. }
  exists (2 ^ (j - k)). rewrite <- Z.pow_add_r by lia. f_equal. lia.
Qed.
Lemma pw_max : forall a b, pw a -> pw b -> pw (Z.max a b).
Proof. intros a b A B. destruct (Z.max_spec a b) as [(_ & ->)|(_ & ->)]; assumption. Qed.
Lemma land_neg : forall y k, 0 <= y < two64 -> 0 <= k < 64 -> Z.land y (u64 (- 2 ^ k)) = 2 ^ k * (y / 2 ^ k).
Proof.
  intros y k Y K. unfold u64. change two64 with (2 ^ 64) in *. rewrite <- (Z.land_ones (- 2 ^ k) 64) by lia. rewrite (Z.land_comm (- 2 ^ k)), Z.land_assoc, Z.land_ones by lia. rewrite Z.mod_small by lia.
  replace (- 2 ^ k) with (Z.lnot (Z.ones k)) by (rewrite Z.ones_equiv; unfold Z.lnot; lia). rewrite <- Z.ldiff_land, Z.ldiff_ones_r by lia. rewrite Z.shiftr_div_pow2, Z.shiftl_mul_pow2 by lia. lia.
Qed.
Lemma round_up_ok : forall x a, pw a -> 0 <= x -> x + a - 1 < two64 -> round_up x a = up x a.
Proof. intros x a P X L. pose proof (pw_pos a P) as A. destruct P as (k & K & ->). unfold round_up, up. rewrite land_neg; [|unfold u64; apply Z.mod_pos_bound; lia|exact K]. unfold u64. rewrite (Z.mod_small (x + 2 ^ k - 1)) by lia. reflexivity. Qed.
Lemma up_spec : forall x a, 0 < a -> (a | up x a) /\ x <= up x a < x + a.
Proof. intros x a A. unfold up. split; [apply Z.divide_factor_l|]. pose proof (Z.div_mod (x + a - 1) a ltac:(lia)) as D. pose proof (Z.mod_pos_bound (x + a - 1) a ltac:(lia)). lia. Qed.
Lemma up_least : forall x a y, 0 < a -> (a | y) -> x <= y -> up x a <= y.
Proof. intros x a y A (q & ->) L. destruct (up_spec x a A) as ((p & E) & B). rewrite E in B |- *. assert (X : p * a < (q + 1) * a) by lia. apply Z.mul_lt_mono_pos_r in X; [|exact A]. apply Z.mul_le_mono_nonneg_r; lia. Qed.
Lemma up_eq : forall x a y, 0 < a -> (a | y) -> x <= y < x + a -> up x a = y.
Proof. intros x a y A D L. destruct (up_spec x a A) as ((p & E) & B). destruct D as (q & ->). rewrite E in B |- *. assert (X : p * a < (q + 1) * a) by lia. assert (Y : q * a < (p + 1) * a) by lia. apply Z.mul_lt_mono_pos_r in X; [|exact A]. apply Z.mul_lt_mono_pos_r in Y; [|exact A]. f_equal. lia. Qed.
Lemma up_id : forall x a, 0 < a -> (a | x) -> up x a = x.
Proof. intros x a A D. apply up_eq; [exact A|exact D|lia]. Qed.
Lemma up_shift : forall s x a, 0 < a -> (a | s) -> up (s + x) a = s + up x a.
Proof. intros s x a A D. destruct (up_spec x a A) as (D1 & B). apply up_eq; [exact A|apply Z.divide_add_r; assumption|lia]. Qed.
Lemma up_up : forall x m a, pw m -> pw a -> up (up x m) a = up x (Z.max m a).
Proof.
  intros x m a M A. pose proof (pw_pos m M) as M0. pose proof (pw_pos a A) as A0. destruct (up_spec x m M0) as (D & B). destruct (Z.max_spec m a) as [(L & ->)|(L & ->)].
  - assert (MA : (m | a)) by (apply pw_le; assumption || lia). destruct (up_spec (up x m) a A0) as (D1 & B1). apply Z.le_antisymm.
    + destruct (up_spec x a A0) as (D2 & B2). apply up_least; [exact A0|exact D2|]. apply up_least; [exact M0|exact (Z.divide_trans _ _ _ MA D2)|lia].
    + apply up_least; [exact A0|exact D1|lia].
  - apply up_id; [exact A0|]. apply (Z.divide_trans _ m); [apply pw_le; assumption || lia|exact D].
Qed.
Lemma land_low : forall x a, pw a -> Z.land x (a - 1) = x mod a.
Proof. intros x a (k & K & ->). apply land_mask. lia. Qed.
Lemma align_pw : forall h, r_align h = 0 \/ pw (r_align h) -> pw (align_of h).
Proof. intros h [E|P]; unfold align_of; [rewrite E; exists 0; split; [lia|reflexivity]|]. pose proof (pw_pos _ P). destruct (r_align h =? 0) eqn:E; [lia|exact P]. Qed.

Lemma greatest_ok : forall hs m, pw m -> Forall plain hs -> pw (greatest m hs) /\ m <= greatest m hs /\ forall h, In h hs -> r_alloc h = true -> align_of h <= greatest m hs.
Proof.
  induction hs as [|h hs IH]; intros m P F; cbn [greatest]; [split; [exact P|split; [lia|intros x []]]|]. apply Forall_cons_iff in F. destruct F as ((_ & _ & A) & F). apply align_pw in A. destruct (r_alloc h) eqn:G.
  - destruct (IH _ (pw_max _ _ P A) F) as (Q & L & H). split; [exact Q|]. split; [lia|]. intros x [<-|I] GX; [lia|exact (H x I GX)].
  - destruct (IH _ P F) as (Q & L & H). split; [exact Q|]. split; [lia|]. intros x [<-|I] GX; [congruence|exact (H x I GX)].
Qed.
Lemma greatest_app : forall a b m, greatest m (a ++ b) = greatest (greatest m a) b.
Proof. induction a as [|h a IH]; intros b m; [reflexivity|]. cbn [app greatest]. apply IH. Qed.
Lemma total_app : forall a b e, total e (a ++ b) = total (total e a) b.
Proof. induction a as [|h a IH]; intros b e; [reflexivity|]. cbn [app total]. apply IH. Qed.
Lemma up_ge0 : forall e a, pw a -> 0 <= e -> 0 <= up e a /\ e <= up e a.
Proof. intros e a P E. destruct (up_spec e a (pw_pos a P)). lia. Qed.
Lemma total_mono : forall hs e, Forall plain hs -> 0 <= e -> e <= total e hs.
Proof.
  induction hs as [|h hs IH]; intros e F E; cbn [total]; [lia|]. apply Forall_cons_iff in F. destruct F as ((S0 & _ & A) & F). apply align_pw in A. destruct (up_ge0 e _ A E). destruct (r_alloc h); [specialize (IH (up e (align_of h) + r_size h) F ltac:(lia)); lia|exact (IH e F E)].
Qed.
Lemma laid_app : forall low s a e a' b b', length a = length a' -> laid low s e (a ++ b) (a' ++ b') <-> laid low s e a a' /\ laid low s (total e a) b b'.
Proof.
  intros low s. induction a as [|h a IH]; intros e [|h' a'] b b' L; try discriminate; cbn [app laid total]; [tauto|]. injection L as L. destruct (r_alloc h); rewrite (IH _ a' b b' L); tauto.
Qed.
Lemma laid_length : forall low s hs e hs', laid low s e hs hs' -> length hs = length hs'.
Proof. intros low s. induction hs as [|h hs IH]; intros e [|h' hs'] H; cbn [laid] in H; try contradiction; [reflexivity|]. cbn [length]. f_equal. destruct (r_alloc h); destruct H as (_ & H); exact (IH _ _ H). Qed.
(* nothing but empty sections so far: the start may move up *)
Lemma laid_move : forall low s0 s1 hs hs', Forall plain hs -> low <= s0 <= s1 -> (forall h, In h hs -> r_alloc h = true -> (align_of h | s0)) -> total 0 hs = 0 -> laid low s0 0 hs hs' -> laid low s1 0 hs hs'.
Proof.
  intros low s0 s1. induction hs as [|h hs IH]; intros [|h' hs'] F LS D T H; cbn [laid total] in *; try contradiction; [exact H|]. pose proof F as F0. apply Forall_cons_iff in F. destruct F as ((S0 & _ & A) & F). apply align_pw in A.
  assert (U0 : up 0 (align_of h) = 0) by (apply up_id; [exact (pw_pos _ A)|apply Z.divide_0_r]). destruct (r_alloc h) eqn:G.
  - rewrite U0 in *. pose proof (total_mono hs (0 + r_size h) F ltac:(lia)). assert (Z0 : r_size h = 0) by lia. rewrite Z0 in *. cbn [Z.add] in *. destruct H as ((a & E & [P|(_ & B & DA)]) & H).
    + split; [exists a; split; [exact E|]; right; split; [reflexivity|]; split; [lia|]; replace a with s0 by lia; apply D; [left; reflexivity|exact G]|]. apply IH; auto. intros x I; apply D; right; exact I.
    + split; [exists a; split; [exact E|]; right; split; [reflexivity|]; split; [lia|exact DA]|]. apply IH; auto. intros x I; apply D; right; exact I.
  - destruct H as (-> & H). split; [reflexivity|]. apply IH; auto. intros x I; apply D; right; exact I.
Qed.
(* the headers but for addresses *)
Definition same (h h' : rsh) : Prop := h' = set_addr h (r_addr h') /\ (r_alloc h = false -> h' = h).
Lemma same_refl : forall h, same h h.
Proof. intros [a b c d]. split; [reflexivity|auto]. Qed.
Lemma laid_same : forall low s hs e hs', laid low s e hs hs' -> Forall2 same hs hs'.
Proof.
  intros low s. induction hs as [|h hs IH]; intros e [|h' hs'] H; cbn [laid] in H; try contradiction; [constructor|]. destruct (r_alloc h) eqn:G.
  - destruct H as ((a & -> & _) & H). constructor; [split; [reflexivity|congruence]|exact (IH _ _ H)].
  - destruct H as (-> & H). constructor; [apply same_refl|exact (IH _ _ H)].
Qed.
(* the layout that is done again *)
Lemma relay_ok : forall low s hs hs', Forall2 same hs hs' -> forall e, Forall plain hs -> 0 <= s -> 0 <= e -> (forall h, In h hs -> r_alloc h = true -> (align_of h | s) /\ s + total e hs + align_of h <= two64) ->
  s + total e hs < two64 -> let '(l, x) := relay (s + e) hs' in laid low s e hs l /\ x = s + total e hs.
Proof.
  intros low s hs hs' H. induction H as [|h h' hs hs' SM H IH]; intros e F SP EP D T; cbn [relay]; [split; [exact Logic.I|reflexivity]|]. cbn [laid total] in *. apply Forall_cons_iff in F. destruct F as ((S0 & _ & A) & F). apply align_pw in A. pose proof (pw_pos _ A) as A0. destruct SM as (SM & SM2).
  destruct (r_alloc h) eqn:G.
  - assert (G' : r_alloc h' = true) by (rewrite SM; exact G). assert (AG : align_of h' = align_of h) by (rewrite SM; reflexivity). assert (SZ : r_size h' = r_size h) by (rewrite SM; reflexivity). rewrite G', AG, SZ. destruct (up_spec e _ A0) as (_ & UB). destruct (D h (or_introl eq_refl) G) as (D1 & D2). pose proof (total_mono hs (up e (align_of h) + r_size h) F ltac:(lia)) as TM.
    rewrite (round_up_ok (s + e) _ A) by lia. rewrite (up_shift s e _ A0 D1). unfold u64. rewrite Z.mod_small by lia.
    replace (s + up e (align_of h) + r_size h) with (s + (up e (align_of h) + r_size h)) by lia.
    specialize (IH (up e (align_of h) + r_size h) F SP ltac:(lia) (fun x I GX => D x (or_intror I) GX) T). destruct (relay (s + (up e (align_of h) + r_size h)) hs') as (l, x). destruct IH as (IH1 & IH2). cbn [laid]; try rewrite G. split; [|exact IH2]. split; [|exact IH1]. exists (s + up e (align_of h)). split; [rewrite SM; reflexivity|left; reflexivity].
  - rewrite (SM2 eq_refl), G. specialize (IH e F SP EP (fun x I GX => D x (or_intror I) GX) T). destruct (relay (s + e) hs') as (l, x). destruct IH as (IH1 & IH2). cbn [laid]; try rewrite G. split; [split; [reflexivity|exact IH1]|exact IH2].
Qed.

(* the loop *)
Section plain_file.
Variables (r : Z) (R0 : 0 <= r).
Let low := up r REL_MIN_ALIGN.
Let m256 : pw REL_MIN_ALIGN. Proof. exists 8. split; [lia|reflexivity]. Qed.
Definition good_lay (hs done : list rsh) (v : lay) : Prop :=
  l_start v = up r (greatest REL_MIN_ALIGN hs) /\ l_base v = l_start v /\ l_end v = l_start v + total 0 hs /\ l_bias v = 0 /\ laid low (l_start v) 0 hs done.
Lemma step_ok : forall hs h done v, Forall plain (hs ++ [h]) -> good_lay hs done v ->
  up r (greatest REL_MIN_ALIGN (hs ++ [h])) + total 0 (hs ++ [h]) + greatest REL_MIN_ALIGN (hs ++ [h]) <= two64 ->
  let '(done', v') := lay_step done h v in good_lay (hs ++ [h]) done' v'.
Proof.
  intros hs h done v F (HS & HB & HE & HZ & HL) NW. pose proof F as F0. apply Forall_app in F. destruct F as (FH & F1). apply Forall_cons_iff in F1. destruct F1 as ((S0 & AD & A) & _). apply align_pw in A. pose proof (pw_pos _ A) as A0.
  destruct (greatest_ok hs REL_MIN_ALIGN m256 FH) as (GP & GM & GA). set (M := greatest REL_MIN_ALIGN hs) in *.
  pose proof (total_mono hs 0 FH ltac:(lia)) as T0. rewrite greatest_app, total_app in NW. cbn [greatest total] in NW. fold M in NW. set (T := total 0 hs) in *.
  unfold lay_step. destruct (r_alloc h) eqn:G.
  2: { unfold good_lay. rewrite greatest_app, total_app. cbn [greatest total]. rewrite G. fold M T. split; [exact HS|]. split; [exact HB|]. split; [exact HE|]. split; [exact HZ|]. apply laid_app; [exact (laid_length _ _ _ _ _ HL)|]. split; [exact HL|]. cbn [laid]. rewrite G. split; [reflexivity|exact Logic.I]. }
  rewrite (AD eq_refl). cbn [Z.eqb orb]. rewrite HB, HE. set (s := l_start v) in *. set (a := align_of h) in *.
  pose proof (pw_pos _ GP) as GP0. destruct (up_spec r M GP0) as (DM & BM). destruct (up_spec T a A0) as (DT & BT).
  pose proof (up_up r M a GP A) as UU. rewrite <- HS in UU. rewrite <- UU in NW. destruct (up_spec s a A0) as (DS & BS). assert (MX : M <= Z.max M a /\ a <= Z.max M a) by lia.
  assert (LS : low <= s). { unfold low. apply up_least; [exact (pw_pos _ m256)| |rewrite HS; lia]. apply (Z.divide_trans _ M); [apply pw_le; [exact m256|exact GP|exact GM]|rewrite HS; exact DM]. }
  assert (DA : forall x, In x hs -> r_alloc x = true -> (align_of x | s)).
  { intros x I GX. apply (Z.divide_trans _ M); [|rewrite HS; exact DM]. apply pw_le; [apply align_pw; rewrite Forall_forall in FH; apply FH; exact I|exact GP|exact (GA x I GX)]. }
  assert (LEN := laid_length _ _ _ _ _ HL).
  assert (GG : forall st done', st = up s a -> laid low st 0 (hs ++ [h]) done' -> forall f, good_lay (hs ++ [h]) done' (Lay st (st + (up T a + r_size h)) st 0 f)).
  { intros st done' E L f. unfold good_lay. cbn [l_start l_end l_base l_bias]. rewrite greatest_app, total_app. cbn [greatest total]. rewrite G. fold M T a. rewrite <- UU. auto. }
  destruct (s + T =? s) eqn:E0.
  - assert (TZ : T = 0) by lia. assert (U0 : up T a = 0) by (rewrite TZ; apply up_id; [exact A0|apply Z.divide_0_r]). rewrite U0 in *. rewrite TZ, Z.add_0_r. rewrite (round_up_ok s a A) by lia. rewrite HZ. unfold u64. rewrite Z.mod_small by lia.
    replace (up s a + r_size h) with (up s a + (0 + r_size h)) by lia. apply GG; [reflexivity|]. apply laid_app; [exact LEN|]. split; [apply (laid_move low s); [exact FH|lia|exact DA|exact TZ|exact HL]|]. cbn [laid]. rewrite G. fold T a. split; [|exact Logic.I]. exists (up s a). split.
    + destruct (up s a =? 0) eqn:Z0; [|reflexivity]. replace (up s a) with 0 by lia. destruct h as [al ad sz ag]. cbn in *. rewrite (AD eq_refl). reflexivity.
    + left. rewrite U0. lia.
  - rewrite (land_low s a A). destruct (negb (s mod a =? 0)) eqn:DV.
    + rewrite (round_up_ok s a A) by lia. rewrite HZ.
      pose proof (relay_ok low (up s a) (hs ++ [h]) (done ++ [h])) as RL. specialize (RL (Forall2_app (laid_same _ _ _ _ _ HL) (Forall2_cons _ _ (same_refl h) (Forall2_nil _))) 0 F0). rewrite Z.add_0_r, total_app in RL. cbn [total] in RL. rewrite G in RL. fold T a in RL.
      assert (ML : M <= a). { destruct (Z.le_gt_cases M a) as [L|L]; [exact L|exfalso]. assert (X : (a | s)) by (apply (Z.divide_trans _ M); [apply pw_le; [exact A|exact GP|lia]|rewrite HS; exact DM]). apply Z.mod_divide in X; lia. }
      destruct (relay (up s a) (done ++ [h])) as (l, x). destruct RL as (RL1 & RL2); [lia|lia| |lia|].
      * intros y I GY. apply in_app_or in I. destruct I as [I|[<-|[]]].
        -- assert (PY : pw (align_of y)) by (apply align_pw; rewrite Forall_forall in FH; apply FH; exact I). pose proof (GA y I GY). split; [|lia]. apply (Z.divide_trans _ a); [apply pw_le; [exact PY|exact A|lia]|exact DS].
        -- fold a. split; [exact DS|lia].
      * subst x. apply GG; [reflexivity|exact RL1].
    + assert (DV' : (a | s)) by (apply Z.mod_divide; lia). assert (US : up s a = s) by (apply up_id; assumption). rewrite US in *. rewrite (round_up_ok (s + T) a A) by lia. rewrite (up_shift s T a A0 DV'), HZ. unfold u64. rewrite Z.mod_small by lia.
      replace (s + up T a + r_size h) with (s + (up T a + r_size h)) by lia. apply GG; [reflexivity|]. apply laid_app; [exact LEN|]. split; [exact HL|]. cbn [laid]. rewrite G. fold T a. split; [|exact Logic.I]. exists (s + up T a). split; [|left; reflexivity].
      destruct (s + up T a =? 0) eqn:Z0; [|reflexivity]. replace (s + up T a) with 0 by lia. destruct h as [al ad sz ag]. cbn in *. rewrite (AD eq_refl). reflexivity.
Qed.
Lemma greatest_mono : forall a b m, pw m -> Forall plain (a ++ b) -> greatest m a <= greatest m (a ++ b).
Proof. intros a b m P F. rewrite greatest_app. apply Forall_app in F. destruct F as (Fa & Fb). destruct (greatest_ok a m P Fa) as (Q & _). apply (greatest_ok b _ Q Fb). Qed.
Lemma loop_ok : forall todo hs done v, Forall plain (hs ++ todo) -> good_lay hs done v -> up r (greatest REL_MIN_ALIGN (hs ++ todo)) + total 0 (hs ++ todo) + greatest REL_MIN_ALIGN (hs ++ todo) <= two64 ->
  let '(done', v') := lay_loop done todo v in good_lay (hs ++ todo) done' v'.
Proof.
  induction todo as [|h todo IH]; intros hs done v F G NW; cbn [lay_loop]; [rewrite app_nil_r; exact G|]. replace (hs ++ h :: todo) with ((hs ++ [h]) ++ todo) in * by (rewrite <- app_assoc; reflexivity). pose proof F as F0. apply Forall_app in F. destruct F as (F1 & F2).
  pose proof (greatest_mono (hs ++ [h]) todo REL_MIN_ALIGN m256 F0) as GM. pose proof (total_mono (hs ++ [h]) 0 F1 ltac:(lia)) as T1. pose proof (total_mono todo (total 0 (hs ++ [h])) F2 ltac:(lia)) as T2. rewrite <- total_app in T2.
  assert (UM : up r (greatest REL_MIN_ALIGN (hs ++ [h])) <= up r (greatest REL_MIN_ALIGN ((hs ++ [h]) ++ todo))).
  { destruct (greatest_ok _ _ m256 F1) as (P1 & _). destruct (greatest_ok _ _ m256 F0) as (P2 & _). destruct (up_spec r _ (pw_pos _ P2)) as (D & B). apply up_least; [exact (pw_pos _ P1)| |lia]. apply (Z.divide_trans _ (greatest REL_MIN_ALIGN ((hs ++ [h]) ++ todo))); [apply pw_le; assumption|exact D]. }
  pose proof (step_ok hs h done v F1 G ltac:(lia)) as ST. destruct (lay_step done h v) as (done1, v1). exact (IH (hs ++ [h]) done1 v1 F0 ST NW).
Qed.
Lemma rel_ok : forall hs, Forall plain hs -> up r (greatest REL_MIN_ALIGN hs) + total 0 hs + greatest REL_MIN_ALIGN hs <= two64 ->
  let s := up r (greatest REL_MIN_ALIGN hs) in exists hs', rel_range r hs = (hs', (s, s + total 0 hs, 0)) /\ laid low s 0 hs hs'.
Proof.
  intros hs F NW. cbn zeta. destruct (greatest_ok hs _ m256 F) as (P & L & _). pose proof (total_mono hs 0 F ltac:(lia)) as T0. destruct (up_spec r _ (pw_pos _ P)) as (_ & B). unfold rel_range. rewrite (round_up_ok r REL_MIN_ALIGN m256) by lia.
  pose proof (loop_ok hs [] [] (Lay low low low 0 true) F) as H. cbn [app] in H. fold low. destruct (lay_loop [] hs (Lay low low low 0 true)) as (hs', v). destruct H as (HS & HB & HE & HZ & HL); [|exact NW|].
  - unfold good_lay. cbn [l_start l_end l_base l_bias greatest total laid]. split; [reflexivity|]. split; [reflexivity|]. split; [lia|]. auto.
  - rewrite HZ. cbn [Z.eqb negb]. exists hs'. rewrite HE, HS. split; [reflexivity|]. rewrite <- HS. exact HL.
Qed.
End plain_file.

(* every nonempty loaded section is in the range, aligned, and behind those before it *)
Lemma laid_in : forall low s hs hs' e, 0 <= e -> Forall plain hs -> (forall h, In h hs -> r_alloc h = true -> (align_of h | s)) -> laid low s e hs hs' ->
  forall a h b, hs' = a ++ h :: b -> r_alloc h = true -> (align_of h | r_addr h) /\ (low <= s -> low <= r_addr h <= s + total e hs) /\ (0 < r_size h \/ 0 < e -> s + e <= r_addr h /\ r_addr h + r_size h <= s + total e hs).
Proof.
  intros low s. induction hs as [|x hs IH]; intros [|x' hs'] e EP F D H a h b E G; cbn [laid] in H; try contradiction; [destruct a; discriminate|]. cbn [total]. apply Forall_cons_iff in F. destruct F as ((S0 & _ & A) & F). apply align_pw in A. pose proof (pw_pos _ A) as A0. destruct (up_spec e _ A0) as (DU & BU).
  assert (D' : forall h, In h hs -> r_alloc h = true -> (align_of h | s)) by (intros y I; apply D; right; exact I).
  destruct a as [|y a]; cbn [app] in E; injection E as EX E.
  - subst x'. destruct (r_alloc x) eqn:GX; [|destruct H as (-> & _); congruence]. destruct H as ((q & -> & Q) & H). cbn [set_addr r_addr r_size] in *. change (align_of (set_addr x q)) with (align_of x). pose proof (total_mono hs (up e (align_of x) + r_size x) F ltac:(lia)) as TM. destruct Q as [->|(Z0 & B & DQ)].
    + split; [apply Z.divide_add_r; [apply D; [left; reflexivity|exact GX]|exact DU]|]. split; intros; lia.
    + split; [exact DQ|]. split; [intros; lia|]. intros [P|P]; lia.
  - subst hs'. destruct (r_alloc x) eqn:GX.
    + destruct H as (_ & H). destruct (IH _ (up e (align_of x) + r_size x) ltac:(lia) F D' H a h b eq_refl G) as (P1 & P2 & P3). split; [exact P1|]. split; [exact P2|]. intros P. destruct (P3 ltac:(lia)). lia.
    + destruct H as (_ & H). destruct (IH _ e EP F D' H a h b eq_refl G) as (P1 & P2 & P3). auto.
Qed.
Lemma laid_apart : forall low s hs hs' e, 0 <= e -> Forall plain hs -> (forall h, In h hs -> r_alloc h = true -> (align_of h | s)) -> laid low s e hs hs' ->
  forall a h b h2 c, hs' = a ++ h :: b ++ h2 :: c -> r_alloc h = true -> r_alloc h2 = true -> 0 < r_size h -> r_addr h + r_size h <= r_addr h2.
Proof.
  intros low s. induction hs as [|x hs IH]; intros [|x' hs'] e EP F D H a h b h2 c E G G2 P; cbn [laid] in H; try contradiction; [destruct a; discriminate|]. apply Forall_cons_iff in F. destruct F as ((S0 & _ & A) & F). apply align_pw in A. pose proof (pw_pos _ A) as A0. destruct (up_spec e _ A0) as (DU & BU).
  assert (D' : forall h, In h hs -> r_alloc h = true -> (align_of h | s)) by (intros y I; apply D; right; exact I).
  destruct a as [|y a]; cbn [app] in E; injection E as EX E.
  - subst x' hs'. destruct (r_alloc x) eqn:GX; [|destruct H as (-> & _); congruence]. destruct H as ((q & -> & Q) & H). cbn [set_addr r_addr r_size] in *. destruct (laid_in low s hs _ (up e (align_of x) + r_size x) ltac:(lia) F D' H b h2 c eq_refl G2) as (_ & _ & P3). destruct (P3 ltac:(lia)) as (P4 & _). lia.
  - subst hs'. destruct (r_alloc x) eqn:GX; destruct H as (_ & H).
    + exact (IH _ (up e (align_of x) + r_size x) ltac:(lia) F D' H a h b h2 c eq_refl G G2 P).
    + exact (IH _ e EP F D' H a h b h2 c eq_refl G G2 P).
Qed.

(* a file that has been laid out before *)
Lemma div_u64 : forall a x, pw a -> (a | u64 x) <-> (a | x).
Proof.
  intros a x (k & K & ->). unfold u64. assert (D : (2 ^ k | two64)) by (exists (2 ^ (64 - k)); rewrite <- Z.pow_add_r by lia; replace (64 - k + k) with 64 by lia; reflexivity).
  pose proof (Z.div_mod x two64 ltac:(lia)) as E. split; intros H.
  - rewrite E. apply Z.divide_add_r; [apply Z.divide_mul_l; exact D|exact H].
  - replace (x mod two64) with (x - two64 * (x / two64)) by lia. apply Z.divide_sub_r; [exact H|apply Z.divide_mul_l; exact D].
Qed.
Lemma round_up_div : forall x a, pw a -> (a | round_up x a).
Proof. intros x a (k & K & ->). unfold round_up. rewrite land_neg; [apply Z.divide_factor_l|unfold u64; apply Z.mod_pos_bound; lia|exact K]. Qed.
Lemma track_step : forall done h v, set_before h -> r_alloc h = true -> (l_first v = true /\ l_start v = l_end v \/ l_first v = false /\ 0 < l_bias v) ->
  exists base, lay_step done h v = (done ++ [h], Lay (l_start v) (if l_first v then r_addr h + r_size h else Z.max (l_end v) (r_addr h + r_size h)) base (if l_first v then r_addr h else Z.min (l_bias v) (r_addr h)) false) /\
    (forall m, pw m -> (m | l_base v - (if l_first v then r_addr h else Z.min (l_bias v) (r_addr h))) -> (Z.max m (align_of h) | base - (if l_first v then r_addr h else Z.min (l_bias v) (r_addr h)))).
Proof.
  intros done h v SB G ST. destruct (SB G) as (P & S0 & NW & A & DA). apply align_pw in A. pose proof (pw_pos _ A) as A0. unfold lay_step. rewrite G.
  assert (C0 : (r_addr h =? 0) || ((l_bias v =? 0) && (l_start v <? l_end v) && negb (l_end v =? round_up (l_end v) (align_of h))) = false).
  { destruct ST as [(_ & E)|(_ & B)]; apply orb_false_iff; (split; [lia|]); apply andb_false_iff; left; lia. }
  rewrite C0. assert (U : u64 (r_addr h + r_size h) = r_addr h + r_size h) by (unfold u64; apply Z.mod_small; lia). rewrite U.
  assert (EE : (if l_first v || (l_end v <? r_addr h + r_size h) then r_addr h + r_size h else l_end v) = (if l_first v then r_addr h + r_size h else Z.max (l_end v) (r_addr h + r_size h))) by (destruct (l_first v); [reflexivity|cbn [orb]; destruct (l_end v <? r_addr h + r_size h) eqn:Q; lia]).
  assert (EB : (if l_first v || (r_addr h <? l_bias v) then r_addr h else l_bias v) = (if l_first v then r_addr h else Z.min (l_bias v) (r_addr h))) by (destruct (l_first v); [reflexivity|cbn [orb]; destruct (r_addr h <? l_bias v) eqn:Q; lia]).
  rewrite EE, EB. set (bias := if l_first v then r_addr h else Z.min (l_bias v) (r_addr h)). eexists. split; [reflexivity|]. intros m PM DM. set (a := align_of h) in *. rewrite !(land_low _ a A).
  assert (MX : (Z.max m a | l_base v - bias) \/ ((u64 (r_addr h - bias + l_base v)) mod a <> 0 /\ Z.max m a = a)).
  { destruct (Z.eq_dec (u64 (r_addr h - bias + l_base v) mod a) 0) as [E|E].
    - left. assert (X : (a | l_base v - bias)). { apply Z.mod_divide in E; [|lia]. apply (proj1 (div_u64 a _ A)) in E. replace (l_base v - bias) with (r_addr h - bias + l_base v - r_addr h) by lia. apply Z.divide_sub_r; assumption. } destruct (Z.max_spec m a) as [(_ & Q)|(_ & Q)]; rewrite Q; [exact X|exact DM].
    - right. split; [exact E|]. destruct (Z.max_spec m a) as [(_ & ->)|(L & ->)]; [reflexivity|]. exfalso. apply E. apply Z.mod_divide; [lia|]. apply (proj2 (div_u64 a _ A)). replace (r_addr h - bias + l_base v) with (r_addr h + (l_base v - bias)) by lia. apply Z.divide_add_r; [exact DA|]. apply (Z.divide_trans _ m); [apply pw_le; assumption|exact DM]. }
  destruct MX as [MX|(MX & ->)].
  - destruct (negb (u64 (r_addr h - bias + l_base v) mod a =? 0)) eqn:Q; [|exact MX]. exfalso. assert (X : u64 (r_addr h - bias + l_base v) mod a <> 0) by lia. apply X. apply Z.mod_divide; [lia|]. apply (proj2 (div_u64 a _ A)). replace (r_addr h - bias + l_base v) with (r_addr h + (l_base v - bias)) by lia. apply Z.divide_add_r; [exact DA|]. apply (Z.divide_trans _ (Z.max m a)); [|exact MX]. apply pw_le; [exact A|apply pw_max; assumption|lia].
  - destruct (negb (u64 (r_addr h - bias + l_base v) mod a =? 0)) eqn:Q; [|lia]. pose proof (round_up_div (l_base v) a A) as RD. pose proof (Z.div_mod bias a ltac:(lia)) as DB.
    pose proof (div_u64 a (round_up (l_base v) a + bias mod a - bias) A) as DU. assert (X : (a | round_up (l_base v) a + bias mod a - bias)) by (replace (round_up (l_base v) a + bias mod a - bias) with (round_up (l_base v) a - a * (bias / a)) by lia; apply Z.divide_sub_r; [exact RD|apply Z.divide_factor_l]).
    pose proof (Z.div_mod (round_up (l_base v) a + bias mod a) two64 ltac:(lia)) as E2. unfold u64. replace ((round_up (l_base v) a + bias mod a) mod two64 - bias) with (round_up (l_base v) a + bias mod a - bias - two64 * ((round_up (l_base v) a + bias mod a) / two64)) by lia. apply Z.divide_sub_r; [exact X|]. apply Z.divide_mul_l. destruct A as (k & K & E). rewrite E. exists (2 ^ (64 - k)). rewrite <- Z.pow_add_r by lia. replace (64 - k + k) with 64 by lia. reflexivity.
Qed.
Lemma track_loop : forall todo done v, Forall set_before todo -> l_first v = false -> 0 < l_bias v ->
  exists base, lay_loop done todo v = (done ++ todo, Lay (l_start v) (highest (l_end v) todo) base (lowest (l_bias v) todo) false) /\
    (forall m, pw m -> (m | l_base v - l_bias v) -> (forall h, In h todo -> r_alloc h = true -> l_bias v <= r_addr h) -> exists m', pw m' /\ m <= m' /\ (m' | base - l_bias v) /\ forall h, In h todo -> r_alloc h = true -> align_of h <= m').
Proof.
  induction todo as [|h todo IH]; intros done v F FI B; cbn [lay_loop lowest highest].
  - exists (l_base v). rewrite app_nil_r. split; [destruct v; cbn in *; rewrite FI; reflexivity|]. intros m PM DM _. exists m. split; [exact PM|]. split; [lia|]. split; [exact DM|]. intros h [].
  - apply Forall_cons_iff in F. destruct F as (SB & F). destruct (r_alloc h) eqn:G.
    + destruct (track_step done h v SB G (or_intror (conj FI B))) as (base & E & AL). rewrite FI in E, AL. rewrite E. destruct (SB G) as (P & _ & _ & A & _). apply align_pw in A.
      destruct (IH (done ++ [h]) (Lay (l_start v) (Z.max (l_end v) (r_addr h + r_size h)) base (Z.min (l_bias v) (r_addr h)) false) F eq_refl ltac:(cbn; lia)) as (b2 & E2 & AL2). cbn [l_start l_end l_bias l_base] in *. exists b2. rewrite <- app_assoc in E2. split; [exact E2|].
      intros m PM DM LO. assert (MN : Z.min (l_bias v) (r_addr h) = l_bias v) by (specialize (LO h (or_introl eq_refl) G); lia). rewrite MN in *. destruct (AL2 _ (pw_max _ _ PM A) (AL m PM DM) (fun x I => LO x (or_intror I))) as (m' & P' & L' & D' & AA). exists m'. split; [exact P'|]. split; [lia|]. split; [exact D'|]. intros x [<-|I] GX; [lia|exact (AA x I GX)].
    + unfold lay_step. rewrite G. destruct (IH (done ++ [h]) v F FI B) as (b2 & E2 & AL2). exists b2. rewrite <- app_assoc in E2. split; [exact E2|]. intros m PM DM LO. destruct (AL2 m PM DM (fun x I => LO x (or_intror I))) as (m' & P' & L' & D' & AA). exists m'. split; [exact P'|]. split; [exact L'|]. split; [exact D'|]. intros x [<-|I] GX; [congruence|exact (AA x I GX)].
Qed.
Lemma skip_loop : forall pre done todo v, Forall (fun h => r_alloc h = false) pre -> lay_loop done (pre ++ todo) v = lay_loop (done ++ pre) todo v.
Proof.
  induction pre as [|h pre IH]; intros done todo v F; [rewrite app_nil_r; reflexivity|]. apply Forall_cons_iff in F. destruct F as (G & F). cbn [app lay_loop]. unfold lay_step. rewrite G, (IH _ _ _ F), <- app_assoc. reflexivity.
Qed.
Lemma set_ok : forall r pre h todo, Forall (fun h => r_alloc h = false) pre -> r_alloc h = true -> Forall set_before (h :: todo) ->
  let hs := pre ++ h :: todo in let lo := lowest (r_addr h) todo in let hi := highest (r_addr h + r_size h) todo in
  exists s, rel_range r hs = (hs, (s, u64 (hi - lo + s), u64 (s - lo))) /\
    ((forall x, In x todo -> r_alloc x = true -> r_addr h <= r_addr x) -> forall x, In x (h :: todo) -> r_alloc x = true -> (align_of x | u64 (r_addr x + u64 (s - lo)))).
Proof.
  intros r pre h todo FP G F. cbn zeta. unfold rel_range. rewrite (skip_loop pre [] (h :: todo) _ FP). cbn [app lay_loop]. pose proof F as F0. apply Forall_cons_iff in F. destruct F as (SB & F). destruct (SB G) as (P & _ & _ & A & DA). apply align_pw in A.
  set (b := round_up r REL_MIN_ALIGN). destruct (track_step pre h (Lay b b b 0 true) SB G (or_introl (conj eq_refl eq_refl))) as (base & E & AL). cbn [l_first l_start l_end l_bias l_base] in *. rewrite E.
  destruct (track_loop todo (pre ++ [h]) (Lay b (r_addr h + r_size h) base (r_addr h) false) F eq_refl P) as (b2 & E2 & AL2). cbn [l_first l_start l_end l_bias l_base] in *. rewrite E2. cbn [l_bias l_base l_end].
  assert (LP : forall l m, 0 < m -> Forall set_before l -> 0 < lowest m l) by (induction l as [|y l IHl]; intros m M FL; cbn [lowest]; [exact M|]; apply Forall_cons_iff in FL; destruct FL as (FY & FL); destruct (r_alloc y) eqn:GY; [apply IHl; [destruct (FY GY); lia|exact FL]|exact (IHl m M FL)]).
  specialize (LP todo (r_addr h) P F). destruct (negb (lowest (r_addr h) todo =? 0)) eqn:Q; [|lia]. exists b2. rewrite <- app_assoc. split; [reflexivity|].
  intros LO x I GX. assert (LW : lowest (r_addr h) todo = r_addr h). { clear - LO. induction todo as [|y l IHl]; [reflexivity|]. cbn [lowest]. destruct (r_alloc y) eqn:GY; [rewrite Z.min_l by (apply LO; [left; reflexivity|exact GY])|]; apply IHl; intros z I; apply LO; right; exact I. }
  rewrite LW. assert (P1 : pw 1) by (exists 0; split; [lia|reflexivity]). destruct (AL2 _ (pw_max _ _ P1 A) (AL 1 P1 (Z.divide_1_l _)) LO) as (m' & P' & L' & D' & AA).
  assert (AX : pw (align_of x) /\ (align_of x | r_addr x)). { rewrite Forall_forall in F0. destruct (F0 x I GX) as (_ & _ & _ & AX & DX). split; [apply align_pw; exact AX|exact DX]. } destruct AX as (AX & DX).
  assert (LX : align_of x <= m') by (destruct I as [<-|I]; [lia|exact (AA x I GX)]). apply (proj2 (div_u64 _ _ AX)). apply Z.divide_add_r; [exact DX|]. apply (proj2 (div_u64 _ _ AX)). apply (Z.divide_trans _ m'); [apply pw_le; assumption|exact D'].
Qed.
