(* Proofs about range lists and location lists. *)
From Verif Require Import Base LebModel LebSpec LebProof DwModel Slice CfiSpec CfiProof CfiSafe FormModel FormSpec FormProps RngModel RngSpec.

(* .debug_addr holds these addresses at the unit's address base *)
Definition addr_table (u : cu) (ao : option Z) (da : option bytes) (addrs : list Z) : Prop :=
  addrs = [] \/
  exists base tab, ao = Some base /\ da = Some tab /\ at_ tab base (concat (map (enc (u_fle u) (u_asize u)) addrs)) /\
    Forall (fun x => 0 <= x < 256 ^ u_asize u) addrs /\ zlen tab < two63.

Lemma addrx_ok : forall u ao da addrs i x, sizes_ok u -> addr_table u ao da addrs -> znth addrs i = Some x -> addrx u ao da i = Ok x.
Proof.
  intros u ao da addrs i x [SA _] [-> | (base & tab & -> & -> & AT & AD & TB)] X.
  { destruct i; discriminate X || (exfalso; unfold znth in X; destruct (_ && _); [destruct (Z.to_nat _)|]; discriminate X). }
  unfold znth in X. destruct ((0 <=? i) && (i <? zlen addrs)) eqn:I; [|discriminate]. apply nth_error_split in X as (l1 & l2 & -> & L1).
  assert (CL : forall l, zlen (concat (map (enc (u_fle u) (u_asize u)) l)) = u_asize u * zlen l).
  { induction l as [|y l IH]; [cbn; lia|]. cbn [map concat]. rewrite zlen_app, zlen_enc, IH, zlen_cons by lia. lia. }
  rewrite map_app, concat_app in AT. cbn [map concat] in AT. pose proof (at_app2 _ _ _ _ AT) as AT2. rewrite CL in AT2. apply at_app1 in AT2.
  replace (zlen l1) with i in AT2 by (unfold zlen; lia). pose proof (at_bound _ _ _ AT2) as [B1 B2]. rewrite zlen_enc in B2 by lia.
  pose proof (at_bound _ _ _ AT) as [B3 _].
  unfold addrx. replace (zlen tab <? u_asize u) with false by lia. replace (zlen tab - u_asize u <? base) with false by nia.
  assert (IB : 0 <= i * u_asize u) by nia. rewrite !u64_small by lia. rewrite (Z.mul_comm i).
  replace (zlen tab - u_asize u - base <? u_asize u * i) with false by lia.
  apply Forall_app in AD as [_ AD]. pose proof (Forall_inv AD) as XB. cbn beta in XB.
  destruct SA as [SA | SA]; rewrite SA in *; [exact (rd_at _ _ _ 4 x ltac:(lia) XB AT2)|exact (rd_at _ _ _ 8 x ltac:(lia) XB AT2)].
Qed.
Lemma uleb_ok : forall d p v b, uleb_of v b -> at_ d p b -> uleb d p = Ok (v, p + zlen b).
Proof.
  intros d p v b U A. pose proof (uleb_len _ _ U). pose proof (at_bound _ _ _ A). unfold uleb. replace (zlen d - p <? 1) with false by lia.
  apply uleb_at; [exact U|exact A|lia].
Qed.
Lemma fixed_ok : forall u d p n v, 0 <= n -> 0 <= v < 256 ^ n -> at_ d p (enc (u_fle u) n v) -> fixed u d p n = Ok (v, p + n).
Proof.
  intros u d p n v N V A. pose proof (at_bound _ _ _ A) as B. rewrite zlen_enc in B by lia. unfold fixed. replace (zlen d - p <? n) with false by lia.
  rewrite (rd_at _ _ _ _ _ N V A). reflexivity.
Qed.
Lemma fixed1_ok : forall u d p v rest, 0 <= v < 256 -> at_ d p (v :: rest) -> fixed u d p 1 = Ok (v, p + 1).
Proof.
  intros u d p v rest V A. pose proof (at_bound _ _ _ A) as B. rewrite zlen_cons in B. pose proof (zlen_nonneg _ rest). unfold fixed.
  replace (zlen d - p <? 1) with false by lia. rewrite (rd_at1 _ _ _ _ _ V A). reflexivity.
Qed.

Section Ok.
Variables (u : cu) (ao : option Z) (da : option bytes) (addrs : list Z).
Hypothesis (SZ : sizes_ok u) (AD : addr_table u ao da addrs).
Notation asz := (u_asize u). Notation fle := (u_fle u).
Notation read_pair := (read_pair u ao da). 

Lemma ulebx_ok : forall d p i b x, uleb_of i b -> at_ d p b -> znth addrs i = Some x -> uleb_addrx u ao da d p = Ok (x, p + zlen b).
Proof.
  intros d p i b x U A X. unfold uleb_addrx. rewrite (uleb_ok _ _ _ _ U A). cbn [obind]. rewrite (addrx_ok _ _ _ _ _ _ SZ AD X). reflexivity.
Qed.
Definition item_of (base : Z) (e : lent) (q : Z) : option item :=
  if is_base e then option_map (fun b => IBase b q) (new_base addrs e)
  else option_map (fun r => IPair (fst r) (snd r) q) (meaning addrs base e).

Lemma u64_plus : forall a b, u64 (a + b) = plus a b.
Proof. reflexivity. Qed.
Lemma u64_plus' : forall a b, u64 (a + b) = plus b a.
Proof. intros a b. unfold u64, plus. f_equal. lia. Qed.

Lemma operand_ok : forall k e b d p base it, operand_bytes fle asz k e b -> code_of k e <> None -> at_ d p b -> item_of base e (p + zlen b) = Some it ->
  match e with
  | EBasex _ => e_basex u ao da d p | EStartxEndx _ _ => e_startx_endx u ao da d p
  | EStartxLen _ _ => match k with KGnu => e_gnu_start_length u ao da d p | _ => e_startx_length u ao da d p end
  | EOffset _ _ => e_offset_pair d p base | EBase _ => e_base u d p | EStartEnd _ _ => e_start_end u d p
  | EStartLen _ _ => e_start_length u d p | EDefault => Ok (IPair 0 (two64 - 1) p)
  end = Ok it.
Proof.
  intros k e b d p base it H C A M. destruct SZ as [SA _]. unfold item_of in M.
  destruct H as [i x U|i j x y U V|i n x y K U V|i n x -> U N|b e x y U V|a HA|b e HB HE|b n y HB V|]; cbn [is_base meaning new_base] in M.
  - destruct (znth addrs i) as [a|] eqn:X; [|discriminate]. injection M as <-. unfold e_basex. rewrite (ulebx_ok _ _ _ _ _ U A X). reflexivity.
  - destruct (znth addrs i) as [a|] eqn:X; [|discriminate]. destruct (znth addrs j) as [a'|] eqn:Y; [|discriminate]. injection M as <-.
    unfold e_startx_endx. rewrite (ulebx_ok _ _ _ _ _ U (at_app1 _ _ _ _ A) X). cbn [obind].
    rewrite (ulebx_ok _ _ _ _ _ V (at_app2 _ _ _ _ A) Y). cbn [obind fst snd]. rewrite zlen_app. do 2 f_equal. lia.
  - destruct (znth addrs i) as [a|] eqn:X; [|discriminate]. injection M as <-.
    assert (G : e_startx_length u ao da d p = Ok (IPair a (plus a n) (p + zlen (x ++ y)))).
    { unfold e_startx_length. rewrite (ulebx_ok _ _ _ _ _ U (at_app1 _ _ _ _ A) X). cbn [obind].
      rewrite (uleb_ok _ _ _ _ V (at_app2 _ _ _ _ A)). cbn [obind]. rewrite zlen_app, u64_plus. do 2 f_equal. lia. }
    destruct k; try exact G. contradiction.
  - destruct (znth addrs i) as [a|] eqn:X; [|discriminate]. injection M as <-.
    unfold e_gnu_start_length. rewrite (ulebx_ok _ _ _ _ _ U (at_app1 _ _ _ _ A) X). cbn [obind].
    rewrite (fixed_ok _ _ _ 4 n ltac:(lia) N (at_app2 _ _ _ _ A)). cbn [obind fst snd]. rewrite zlen_app, u64_plus, zlen_enc by lia. do 2 f_equal. lia.
  - injection M as <-. unfold e_offset_pair. rewrite (uleb_ok _ _ _ _ U (at_app1 _ _ _ _ A)). cbn [obind].
    rewrite (uleb_ok _ _ _ _ V (at_app2 _ _ _ _ A)). cbn [obind fst snd]. rewrite zlen_app, !u64_plus'. do 2 f_equal. lia.
  - injection M as <-. unfold e_base. rewrite (fixed_ok _ _ _ asz a ltac:(lia) HA A). cbn [obind]. rewrite zlen_enc by lia. reflexivity.
  - injection M as <-. unfold e_start_end. pose proof (at_bound _ _ _ A) as B. rewrite zlen_app, !zlen_enc in B by lia.
    replace (zlen d - p <? 2 * asz) with false by lia.
    rewrite (fixed_ok _ _ _ asz b ltac:(lia) HB (at_app1 _ _ _ _ A)). cbn [obind]. pose proof (at_app2 _ _ _ _ A) as A2. rewrite zlen_enc in A2 by lia.
    rewrite (fixed_ok _ _ _ asz e ltac:(lia) HE A2). cbn [obind fst snd]. rewrite zlen_app, !zlen_enc by lia. do 2 f_equal. lia.
  - injection M as <-. unfold e_start_length.
    rewrite (fixed_ok _ _ _ asz b ltac:(lia) HB (at_app1 _ _ _ _ A)). cbn [obind]. pose proof (at_app2 _ _ _ _ A) as A2. rewrite zlen_enc in A2 by lia.
    rewrite (uleb_ok _ _ _ _ V A2). cbn [obind fst snd]. rewrite zlen_app, !zlen_enc, u64_plus by lia. do 2 f_equal. lia.
  - injection M as <-. cbn [fst snd]. do 2 f_equal. cbn. lia.
Qed.
Lemma escape_eq : (if asz =? 8 then two64 - 1 else two32 - 1) = 256 ^ asz - 1.
Proof. destruct SZ as [[-> | ->] _]; reflexivity. Qed.
Lemma entry_ok : forall k e b d p base it, entry_bytes fle asz k e b -> at_ d p b -> item_of base e (p + zlen b) = Some it -> read_pair k d p base = Ok it.
Proof.
  intros k e b d p base it H A M. pose proof SZ as [SA _]. destruct H as [e c b C O|b e -> HB HE NB NZ|a -> HA NA].
  - assert (A2 : at_ d (p + 1) b) by (apply (at_app2 d p [c] b A)).
    rewrite zlen_cons, Z.add_assoc in M. pose proof (operand_ok k e b d (p + 1) base it O ltac:(congruence) A2 M) as E.
    assert (CB : 0 <= c < 256) by (destruct k, e; cbn in C; try discriminate C; injection C as <-; lia).
    destruct k; [destruct e; discriminate C| | |]; unfold RngModel.read_pair; rewrite (fixed1_ok _ _ _ _ _ CB A); cbn [obind];
      destruct e; try discriminate C; injection C as <-; cbn [Z.eqb Pos.eqb]; exact E.
  - injection M as <-. pose proof (at_bound _ _ _ A) as B. rewrite zlen_app, !zlen_enc in B by lia. unfold RngModel.read_pair. cbv zeta.
    replace (zlen d - p <? asz * 2) with false by lia. rewrite (rd_at _ _ _ asz b ltac:(lia) HB (at_app1 _ _ _ _ A)). cbn [obind].
    pose proof (at_app2 _ _ _ _ A) as A2. rewrite zlen_enc in A2 by lia. rewrite (rd_at _ _ _ asz e ltac:(lia) HE A2). cbn [obind].
    rewrite escape_eq. replace (b =? 256 ^ asz - 1) with false by lia. replace ((b =? 0) && (e =? 0)) with false by lia.
    rewrite !u64_plus'. cbn [fst snd]. rewrite zlen_app, !zlen_enc by lia. do 2 f_equal. lia.
  - injection M as <-. pose proof (at_bound _ _ _ A) as B. rewrite zlen_app, !zlen_enc in B by lia. unfold RngModel.read_pair. cbv zeta.
    replace (zlen d - p <? asz * 2) with false by lia. assert (HM : 0 <= 256 ^ asz - 1 < 256 ^ asz) by (destruct SA as [-> | ->]; lia).
    rewrite (rd_at _ _ _ asz _ ltac:(lia) HM (at_app1 _ _ _ _ A)). cbn [obind].
    pose proof (at_app2 _ _ _ _ A) as A2. rewrite zlen_enc in A2 by lia. rewrite (rd_at _ _ _ asz a ltac:(lia) HA A2). cbn [obind].
    rewrite escape_eq, Z.eqb_refl. replace (a =? 256 ^ asz - 1) with false by lia. rewrite zlen_app, !zlen_enc by lia. do 2 f_equal. lia.
Qed.
Lemma end_ok : forall k d p base, at_ d p (end_bytes fle asz k) -> exists q, read_pair k d p base = Ok (IEnd q).
Proof.
  intros k d p base A. pose proof SZ as [SA _]. destruct k; cbn [end_bytes] in A;
    try (eexists; unfold RngModel.read_pair; rewrite (fixed1_ok _ _ _ 0 _ ltac:(lia) A); reflexivity).
  exists (p + asz * 2). pose proof (at_bound _ _ _ A) as B. rewrite zlen_app, !zlen_enc in B by lia. unfold RngModel.read_pair. cbv zeta.
  replace (zlen d - p <? asz * 2) with false by lia. assert (HM : 0 <= 0 < 256 ^ asz) by (destruct SA as [-> | ->]; lia).
  rewrite (rd_at _ _ _ asz 0 ltac:(lia) HM (at_app1 _ _ _ _ A)). cbn [obind].
  pose proof (at_app2 _ _ _ _ A) as A2. rewrite zlen_enc in A2 by lia. rewrite (rd_at _ _ _ asz 0 ltac:(lia) HM A2). cbn [obind].
  rewrite escape_eq. replace (0 =? 256 ^ asz - 1) with false by (destruct SA as [-> | ->]; reflexivity). reflexivity.
Qed.
Lemma entry_len : forall k e b, entry_bytes fle asz k e b -> 1 <= zlen b /\ (is_base e = false -> e <> EDefault -> 2 <= zlen b).
Proof using SZ. clear AD addrs.
  intros k e b H. pose proof SZ as [SA _]. destruct H as [e c b C O|b e -> HB HE NB NZ|a -> HA NA].
  - rewrite zlen_cons. pose proof (zlen_nonneg _ b). split; [lia|]. intros IB ND.
    destruct O as [i x U|i j x y U V|i n x y K U V|i n x -> U N|b e x y U V|a HA|b e HB HE|b n y HB V|]; try discriminate IB; try contradiction;
      rewrite zlen_app, ?zlen_enc by lia; try (pose proof (uleb_len _ _ U)); try (pose proof (uleb_len _ _ V)); try lia.
  - rewrite zlen_app, !zlen_enc by lia. lia.
  - rewrite zlen_app, !zlen_enc by lia. lia.
Qed.
Lemma list_len : forall P k (pay : P -> bytes -> Prop) l bl, list_bytes fle asz k pay l bl -> (List.length l < List.length bl)%nat.
Proof using SZ. clear AD addrs.
  intros P k pay l bl H. pose proof SZ as [SA _]. induction H as [|e x b l bl IB E L IH|e x b bx l bl IB E PX L IH]; cbn [List.length].
  - destruct k; cbn [end_bytes]; cbn [List.length]; try lia. rewrite app_length. pose proof (zlen_enc fle asz 0). unfold zlen in *. lia.
  - pose proof (entry_len _ _ _ E). rewrite app_length. unfold zlen in *. lia.
  - pose proof (entry_len _ _ _ E). rewrite !app_length. unfold zlen in *. lia.
Qed.
Lemma end_len : forall k, 1 <= zlen (end_bytes fle asz k).
Proof using SZ. clear AD addrs. intros k. pose proof SZ as [SA _]. destruct k; cbn [end_bytes]; rewrite ?zlen_app, ?zlen_enc by lia; cbn; lia. Qed.
Lemma list_len1 : forall P k (pay : P -> bytes -> Prop) l bl, list_bytes fle asz k pay l bl -> 1 <= zlen bl.
Proof using SZ. clear AD addrs. intros P k pay l bl H. apply list_len in H. unfold zlen. lia. Qed.

(* one step through a range list *)
Lemma next_pair_ok : forall k l bl, list_bytes fle asz k no_payload l bl -> forall fuel d p base r, (List.length l < fuel)%nat -> at_ d p bl -> denotes addrs base l r ->
  match r with
  | [] => next_pair u ao da fuel k d p base = Ok None
  | (b, e, _) :: r' => exists l' bl' q base', next_pair u ao da fuel k d p base = Ok (Some (b, e, q, base')) /\ p < q /\ (k <> KLoc -> p + 2 <= q) /\
      (List.length l' < List.length l)%nat /\ list_bytes fle asz k no_payload l' bl' /\ at_ d q bl' /\ denotes addrs base' l' r'
  end.
Proof.
  intros k l bl H. induction H as [|e x b l bl IB E L IH|e x b bx l bl IB E PX L IH]; intros fuel d p base r F A D;
    (destruct fuel as [|fuel]; [cbn in F; lia|]).
  - inversion D; subst. destruct (end_ok k d p base A) as [q Q]. cbn [next_pair]. rewrite Q. reflexivity.
  - inversion D as [|? base' ? ? ? ? _ NB DL|? ? ? ? ? ? ? IB' _ _]; subst; [|congruence]. cbn [List.length] in F.
    specialize (IH fuel d (p + zlen b) base' r ltac:(lia) (at_app2 _ _ _ _ A) DL).
    assert (RP : read_pair k d p base = Ok (IBase base' (p + zlen b))).
    { apply (entry_ok k e b); [exact E|exact (at_app1 _ _ _ _ A)|]. unfold item_of. rewrite IB, NB. reflexivity. }
    cbn [next_pair]. rewrite RP. cbn [obind]. destruct r as [|[[y z] w] r']; [exact IH|].
    destruct IH as (l' & bl' & q & base'' & N & PQ & PK & LL & R). exists l', bl', q, base''. pose proof (entry_len _ _ _ E).
    split; [exact N|]. split; [lia|]. split; [intros K; specialize (PK K); lia|]. split; [cbn [List.length]; lia|exact R].
  - inversion D as [|? ? ? ? ? ? IB' _ _|? ? ? y z ? r' _ ME DL]; subst; [congruence|]. unfold no_payload in PX. subst bx. cbn [app] in A.
    assert (RP : read_pair k d p base = Ok (IPair y z (p + zlen b))).
    { apply (entry_ok k e b); [exact E|exact (at_app1 _ _ _ _ A)|]. unfold item_of. rewrite IB, ME. reflexivity. }
    exists l, bl, (p + zlen b), base. cbn [next_pair]. rewrite RP. pose proof (entry_len _ _ _ E) as [E1 E2].
    split; [reflexivity|]. split; [lia|]. split.
    { intros K. specialize (E2 IB). destruct e; try (specialize (E2 ltac:(discriminate)); lia).
      exfalso. inversion E as [? c ? C O| |]; subst. destruct k; discriminate C || contradiction. }
    split; [cbn [List.length]; lia|]. split; [exact L|]. split; [exact (at_app2 _ _ _ _ A)|exact DL].
Qed.

(* the expression of a location list entry *)
Lemma block_ok : forall k x bx d p, expr_payload fle k x bx -> at_ d p bx -> zlen d < two63 -> exists q, loc_block u k d p = Ok (zlen x, q) /\ p < q /\
  at_ d q x /\ q + zlen x = p + zlen bx /\ s64 (zlen x) = zlen x /\ q + zlen x <= zlen d.
Proof using u.
  intros k x bx d p H A DL. pose proof (zlen_nonneg _ x) as XP.
  assert (S6 : zlen x < two63 -> s64 (zlen x) = zlen x) by (intros ?; apply s64_small; lia).
  assert (G2 : zlen x < 65536 -> bx = enc fle 2 (zlen x) ++ x -> fixed u d p 2 = Ok (zlen x, p + 2) /\ at_ d (p + 2) x /\ p + 2 + zlen x = p + zlen bx /\ p + 2 + zlen x <= zlen d).
  { intros L ->. split; [apply fixed_ok; [lia|lia|exact (at_app1 _ _ _ _ A)]|]. pose proof (at_app2 _ _ _ _ A) as A2. rewrite zlen_enc in A2 by lia.
    pose proof (at_bound _ _ _ A2). split; [exact A2|]. rewrite zlen_app, zlen_enc by lia. lia. }
  assert (GU : forall n, uleb_of (zlen x) n -> bx = n ++ x -> exists q, uleb d p = Ok (zlen x, q) /\ p < q /\ at_ d q x /\ q + zlen x = p + zlen bx /\ s64 (zlen x) = zlen x /\ q + zlen x <= zlen d).
  { intros n U ->. exists (p + zlen n). split; [exact (uleb_ok _ _ _ _ U (at_app1 _ _ _ _ A))|]. pose proof (uleb_len _ _ U).
    pose proof (at_app2 _ _ _ _ A) as A2. pose proof (at_bound _ _ _ A2). split; [lia|]. split; [exact A2|]. rewrite zlen_app. split; [lia|]. split; [apply S6; lia|lia]. }
  destruct k; cbn [expr_payload loc_block] in *; try (destruct H as (n & U & E); exact (GU n U E));
    destruct H as (L & E); destruct (G2 L E) as (F & A2 & Q & B); exists (p + 2); rewrite F; cbn [obind];
    (split; [reflexivity|]); (split; [lia|]); (split; [exact A2|]); (split; [exact Q|]); (split; [apply S6; lia|lia]).
Qed.
Definition wanted (address : Z) (r : Z * Z) : Prop := address = two64 - 1 \/ fst r <= address < snd r.
Lemma next_loc_ok : forall k l bl, list_bytes fle asz k (expr_payload fle k) l bl -> forall fuel d p base r address, (List.length l < fuel)%nat ->
  zlen d < two63 -> at_ d p bl -> denotes addrs base l r ->
  (Forall (fun t => ~ wanted address (fst t)) r /\ next_loc u ao da fuel k d p base address = Ok None) \/
  exists r1 b e x r2 l' bl' data q base', r = r1 ++ (b, e, x) :: r2 /\ Forall (fun t => ~ wanted address (fst t)) r1 /\ wanted address (b, e) /\
    next_loc u ao da fuel k d p base address = Ok (Some (Locent b e data (zlen x) q base')) /\ at_ d data x /\ p + 2 <= q /\
    (List.length l' < List.length l)%nat /\ list_bytes fle asz k (expr_payload fle k) l' bl' /\ at_ d q bl' /\ denotes addrs base' l' r2.
Proof.
  intros k l bl H. induction H as [|e x b l bl IB E L IH|e x b bx l bl IB E PX L IH]; intros fuel d p base r address F DL A D;
    (destruct fuel as [|fuel]; [cbn in F; lia|]).
  - inversion D; subst. destruct (end_ok k d p base A) as [q Q]. left. split; [constructor|]. cbn [next_loc]. rewrite Q. reflexivity.
  - inversion D as [|? base' ? ? ? ? _ NB DD|? ? ? ? ? ? ? IB' _ _]; subst; [|congruence]. cbn [List.length] in F.
    specialize (IH fuel d (p + zlen b) base' r address ltac:(lia) DL (at_app2 _ _ _ _ A) DD).
    assert (RP : read_pair k d p base = Ok (IBase base' (p + zlen b))).
    { apply (entry_ok k e b); [exact E|exact (at_app1 _ _ _ _ A)|]. unfold item_of. rewrite IB, NB. reflexivity. }
    cbn [next_loc]. rewrite RP. cbn [obind]. destruct IH as [IH | (r1 & y & z & x' & r2 & l' & bl' & data & q & base'' & R1 & R2 & R3 & R4 & R5 & R6 & R7 & R8)]; [left; exact IH|].
    right. exists r1, y, z, x', r2, l', bl', data, q, base''. pose proof (entry_len _ _ _ E).
    repeat (split; [first [assumption | cbn [List.length]; lia]|]). exact R8.
  - inversion D as [|? ? ? ? ? ? IB' _ _|? ? ? y z ? r' _ ME DD]; subst; [congruence|]. cbn [List.length] in F.
    assert (RP : read_pair k d p base = Ok (IPair y z (p + zlen b))).
    { apply (entry_ok k e b); [exact E|exact (at_app1 _ _ _ _ A)|]. unfold item_of. rewrite IB, ME. reflexivity. }
    pose proof (at_app2 _ _ _ _ A) as A2. pose proof (at_app2 _ _ _ _ A2) as A3.
    destruct (block_ok k x bx d (p + zlen b) PX (at_app1 _ _ _ _ A2) DL) as (q & LB & PQ & AX & QX & S6 & QD).
    cbn [next_loc]. rewrite RP. cbn [obind]. rewrite LB. cbn [obind]. rewrite S6. replace (zlen d - q <? zlen x) with false by lia.
    pose proof (entry_len _ _ _ E). pose proof (zlen_nonneg _ x). rewrite QX.
    destruct (negb (address =? two64 - 1) && ((address <? y) || (z <=? address))) eqn:W.
    + assert (NW : ~ wanted address (y, z)) by (unfold wanted; cbn [fst snd]; lia).
      specialize (IH fuel d (p + zlen b + zlen bx) base r' address ltac:(lia) DL A3 DD).
      destruct IH as [[IH1 IH2] | (r1 & y' & z' & x' & r2 & l' & bl' & data & q' & base'' & -> & R2 & R3 & R4 & R5 & R6 & R7 & R8)].
      * left. split; [constructor; assumption|exact IH2].
      * right. exists ((y, z, x) :: r1), y', z', x', r2, l', bl', data, q', base''. split; [reflexivity|]. split; [constructor; assumption|].
        repeat (split; [first [assumption | cbn [List.length]; lia]|]). exact R8.
    + right. exists [], y, z, x, r', l, bl, q, (p + zlen b + zlen bx), base. split; [reflexivity|]. split; [constructor|].
      split; [unfold wanted; cbn [fst snd]; lia|]. split; [reflexivity|]. split; [exact AX|]. split; [lia|].
      split; [cbn [List.length]; lia|]. split; [exact L|]. split; [exact A3|exact DD].
Qed.
End Ok.

(* ---- arbitrary contents ---- *)
Lemma uleb_safe : forall d p, bytes_ok d -> 0 <= p -> safe (uleb d p) (fun r => 0 <= fst r < two64 /\ p < snd r <= zlen d).
Proof.
  intros d p B P. unfold uleb. destruct (zlen d - p <? 1) eqn:E; [exact Logic.I|].
  destruct (get_uleb128_total d p (zlen d) B ltac:(lia) ltac:(lia)) as (v & q & G & V & Q & _). rewrite G. cbn. unfold is_u64 in V. lia.
Qed.
Lemma fixed_safe : forall u d p n, 0 <= p -> 0 <= n -> safe (fixed u d p n) (fun r => snd r = p + n /\ p + n <= zlen d).
Proof. intros u d p n P N. unfold fixed. destruct (zlen d - p <? n) eqn:E; [exact Logic.I|]. rewrite rd_in by lia. cbn. lia. Qed.
Lemma addrx_safe : forall u ao da i, sizes_ok u -> (forall b, ao = Some b -> 0 <= b) -> (forall t, da = Some t -> zlen t < two63) -> safe (addrx u ao da i) (fun _ => True).
Proof.
  intros u ao da i [SA _] AO DA. unfold addrx. destruct ao as [b|]; [|exact Logic.I]. destruct da as [t|]; [|exact Logic.I].
  specialize (AO b eq_refl). specialize (DA t eq_refl).
  destruct (zlen t <? u_asize u) eqn:E1; [exact Logic.I|]. destruct (zlen t - u_asize u <? b) eqn:E2; [exact Logic.I|]. cbv zeta.
  destruct (u64 (zlen t - u_asize u - b) <? u64 (i * u_asize u)) eqn:E3; [exact Logic.I|].
  rewrite (u64_small (zlen t - _ - b)) in E3 by lia. assert (0 <= u64 (i * u_asize u)) by (apply Z.mod_pos_bound; lia).
  apply rd_safe; destruct SA as [SA | SA]; rewrite SA in *; cbn [Z.eqb Pos.eqb]; lia.
Qed.
Definition item_next (it : item) : Z := match it with IPair _ _ p | IBase _ p | IEnd p => p end.
Section Safe.
Variables (u : cu) (ao : option Z) (da : option bytes).
Hypothesis (SZ : sizes_ok u) (AO : forall b, ao = Some b -> 0 <= b) (DA : forall t, da = Some t -> zlen t < two63).
Lemma ulebx_safe : forall d p, bytes_ok d -> 0 <= p -> safe (uleb_addrx u ao da d p) (fun r => p < snd r <= zlen d).
Proof.
  intros d p B P. unfold uleb_addrx. eapply safe_bind; [exact (uleb_safe d p B P)|]. intros [i q] [_ Q]. cbn [snd] in Q.
  eapply safe_bind; [exact (addrx_safe u ao da i SZ AO DA)|]. intros a _. exact Q.
Qed.
Ltac step H := eapply safe_bind; [exact H|]; let q := fresh "q" in let Q := fresh "Q" in intros [? q] Q; cbn [fst snd] in Q; cbn beta iota.
Lemma read_pair_safe : forall k d p base, bytes_ok d -> 0 <= p -> safe (read_pair u ao da k d p base) (fun it => p < item_next it <= zlen d).
Proof.
  intros k d p base B P. pose proof SZ as [SA _].
  assert (A1 : forall p, 0 <= p -> safe (e_basex u ao da d p) (fun it => p < item_next it <= zlen d)).
  { clear p P. intros p P. unfold e_basex. step (ulebx_safe d p B P). exact Q. }
  assert (A2 : forall p, 0 <= p -> safe (e_startx_endx u ao da d p) (fun it => p < item_next it <= zlen d)).
  { clear p P. intros p P. unfold e_startx_endx. step (ulebx_safe d p B P). step (ulebx_safe d q B ltac:(lia)). cbn. lia. }
  assert (A3 : forall p, 0 <= p -> safe (e_startx_length u ao da d p) (fun it => p < item_next it <= zlen d)).
  { clear p P. intros p P. unfold e_startx_length. step (ulebx_safe d p B P). step (uleb_safe d q B ltac:(lia)). cbn. lia. }
  assert (A4 : forall p, 0 <= p -> safe (e_offset_pair d p base) (fun it => p < item_next it <= zlen d)).
  { clear p P. intros p P. unfold e_offset_pair. step (uleb_safe d p B P). step (uleb_safe d q B ltac:(lia)). cbn. lia. }
  assert (A5 : forall p, 0 <= p -> safe (e_base u d p) (fun it => p < item_next it <= zlen d)).
  { clear p P. intros p P. unfold e_base. step (fixed_safe u d p (u_asize u) P ltac:(lia)). cbn. lia. }
  assert (A6 : forall p, 0 <= p -> safe (e_start_end u d p) (fun it => p < item_next it <= zlen d)).
  { clear p P. intros p P. unfold e_start_end. destruct (zlen d - p <? 2 * u_asize u); [exact Logic.I|].
    step (fixed_safe u d p (u_asize u) P ltac:(lia)). step (fixed_safe u d q (u_asize u) ltac:(lia) ltac:(lia)). cbn. lia. }
  assert (A7 : forall p, 0 <= p -> safe (e_start_length u d p) (fun it => p < item_next it <= zlen d)).
  { clear p P. intros p P. unfold e_start_length. step (fixed_safe u d p (u_asize u) P ltac:(lia)). step (uleb_safe d q B ltac:(lia)). cbn. lia. }
  assert (A8 : forall p, 0 <= p -> safe (e_gnu_start_length u ao da d p) (fun it => p < item_next it <= zlen d)).
  { clear p P. intros p P. unfold e_gnu_start_length. step (ulebx_safe d p B P). step (fixed_safe u d q 4 ltac:(lia) ltac:(lia)). cbn. lia. }
  assert (W : forall o, safe o (fun it => p + 1 < item_next it <= zlen d) -> safe o (fun it => p < item_next it <= zlen d)).
  { intros o H. eapply safe_impl; [exact H|]. intros it H'. cbn beta in *. lia. }
  destruct k; cbn [read_pair].
  { cbv zeta. destruct (zlen d - p <? u_asize u * 2) eqn:E; [exact Logic.I|]. rewrite !rd_in by lia. cbn [obind].
    repeat match goal with |- context [if ?b then _ else _] => destruct b end; cbn [safe item_next]; try exact Logic.I; lia. }
  all: step (fixed_safe u d p 1 P ltac:(lia)); destruct Q as [-> Q];
    repeat match goal with |- context [if ?z =? ?c then _ else _] => destruct (z =? c) end;
    first [exact Logic.I | cbn; lia | apply W; first [apply A1 | apply A2 | apply A3 | apply A4 | apply A5 | apply A6 | apply A7 | apply A8]; lia].
Qed.
Lemma next_pair_safe : forall k d, bytes_ok d -> forall fuel p base, 0 <= p -> (0 < fuel)%nat -> zlen d - p < Z.of_nat fuel ->
  safe (next_pair u ao da fuel k d p base) (fun r => match r with None => True | Some (_, _, q, _) => p < q <= zlen d end).
Proof.
  intros k d B. induction fuel as [|fuel IH]; intros p base P F0 F.
  - lia.
  - cbn [next_pair]. eapply safe_bind; [exact (read_pair_safe k d p base B P)|]. intros it Q. destruct it as [b e q|b q|q]; cbn [item_next] in Q.
    + exact Q.
    + eapply safe_impl; [exact (IH q b ltac:(lia) ltac:(lia) ltac:(lia))|]. intros [[[[? ?] q'] ?]|] H; [cbn beta iota in *; lia|exact Logic.I].
    + exact Logic.I.
Qed.
(* an expression lies in the section unless its length is 2^63 or more *)
Lemma next_loc_safe : forall k d, bytes_ok d -> zlen d < two63 -> forall fuel p base, 0 <= p -> (0 < fuel)%nat -> zlen d - p < Z.of_nat fuel ->
  safe (next_loc u ao da fuel k d p base (two64 - 1)) (fun r => match r with None => True | Some e =>
    (k = KLoc \/ k = KRng) /\ two63 <= le_len e < two64 \/ 0 <= le_len e /\ p < le_data e /\ le_data e + le_len e = le_next e /\ le_next e <= zlen d end).
Proof.
  intros k d B DL. induction fuel as [|fuel IH]; intros p base P F0 F; [lia|].
  cbn [next_loc]. eapply safe_bind; [exact (read_pair_safe k d p base B P)|]. intros it Q. destruct it as [b e q|b q|q]; cbn [item_next] in Q.
  - assert (LB : safe (loc_block u k d q) (fun r => q < snd r <= zlen d /\ 0 <= fst r < two64 /\ ((k = KLoc \/ k = KRng) \/ fst r < 65536))).
    { assert (G : safe (' (n, q) <- fixed u d q 2 ;; Ok (n, q)) (fun r => q < snd r <= zlen d /\ 0 <= fst r < two64 /\ ((k = KLoc \/ k = KRng) \/ fst r < 65536))).
      { unfold fixed. destruct (zlen d - q <? 2) eqn:E; [exact Logic.I|]. rewrite rd_in by lia. cbn [obind safe fst snd].
        assert (V : 0 <= fval (u_fle u) (zsub d q 2) < 65536).
        { apply (rd_bound (u_fle u) d q 2 _ B ltac:(lia)). apply rd_in; lia. }
        split; [lia|]. split; [lia|right; lia]. }
      destruct k; cbn [loc_block]; try exact G; (eapply safe_impl; [exact (uleb_safe d q B ltac:(lia))|]); intros [n r] [H1 H2]; cbn [fst snd] in *; tauto. }
    eapply safe_bind; [exact LB|]. intros [n r] (R & N & K). cbn [fst snd] in R, N, K. cbn beta iota.
    destruct (zlen d - r <? s64 n) eqn:S6; [exact Logic.I|]. rewrite Z.eqb_refl. cbn [negb andb safe le_data le_len le_next].
    destruct (Z_lt_le_dec n two63) as [L|L].
    + right. rewrite s64_small in S6 |- * by lia. lia.
    + left. split; [|lia]. destruct K as [K|K]; [exact K|]. lia.
  - eapply safe_impl; [exact (IH q b ltac:(lia) ltac:(lia) ltac:(lia))|]. intros [e|] H; cbn beta iota in *; [|exact Logic.I]. destruct H as [H|H]; [left; exact H|right; lia].
  - exact Logic.I.
Qed.
End Safe.
