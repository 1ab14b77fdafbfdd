(* The lookup with the search table of .eh_frame_hdr. *)
From Verif Require Import Base LebModel LebSpec LebProof DwModel Slice CfiModel CfiSpec CfiProof NcfiModel NcfiSpec NcfiProof FdeModel FdeSpec FdeProof.

(* ---- specification ---- *)
(* the table is read with addresses relative to that of the header; values of a fixed size of 4 or 8 bytes,
   absolute or relative to the header (DW_EH_PE_datarel) *)
Definition hdr_view (c : cfi) (mem : bytes) (vaddr : Z) : cfi := Cfi mem (zlen mem) (c_fle c) (c_c32 c) true vaddr 0 vaddr.
Definition table_encoding (e : Z) : Prop := exists ap f, e = ap + f /\ (ap = 0 \/ ap = 48) /\ In f [0; 3; 4; 11; 12].
(* tb are the bytes of the table with the entries l: first address and address of the FDE *)
Inductive table_bytes (c : cfi) (hc : cfi) (e w : Z) : list (Z * Z) -> bytes -> Prop :=
| TB_nil : table_bytes c hc e w [] []
| TB_cons : forall s a sb ab l r, (forall p, ptr_encodes hc e p s sb) -> (forall p, ptr_encodes hc e p a ab) -> zlen sb = w -> zlen ab = w ->
    table_bytes c hc e w l r -> table_bytes c hc e w ((s, a) :: l) (sb ++ ab ++ r).
(* the table has an entry for every FDE that covers an address and for no other, in the order of the addresses *)
Definition table_lists (c : cfi) (frames : list aframe) (l : list (Z * Z)) : Prop :=
  (forall f, In f frames -> 0 < r_len f -> In (r_start f, (c_vaddr c + r_off f) mod two64) l) /\
  (forall s a, In (s, a) l -> exists f, In f frames /\ 0 < r_len f /\ s = r_start f /\ a = (c_vaddr c + r_off f) mod two64) /\
  (forall i j x y, 0 <= i < j -> znth l i = Some x -> znth l j = Some y -> fst x < fst y).
Definition table_ok (c : cfi) (frames : list aframe) (t : table) : Prop :=
  exists l w tb tail, t_mem t = tb ++ tail /\ zlen (t_mem t) <= t_len t /\ t_n t = zlen l /\ table_encoding (t_enc t) /\
    fixed_size c (t_enc t) = Some w /\
    table_bytes c (Cfi (t_mem t) (t_len t) (c_fle c) (c_c32 c) true (t_vaddr t) 0 (t_vaddr t)) (t_enc t) w l tb /\
    table_lists c frames l.

(* ---- proofs ---- *)
Lemma table_len : forall c hc e w l tb, table_bytes c hc e w l tb -> zlen tb = 2 * w * zlen l.
Proof. intros c hc e w l tb H. induction H; [cbn; lia|]. rewrite !zlen_app, zlen_cons. lia. Qed.
Lemma table_get : forall c hc e w l tb mem p, table_bytes c hc e w l tb -> at_ mem p tb -> forall i s a, znth l i = Some (s, a) ->
  exists sb ab, (forall p, ptr_encodes hc e p s sb) /\ (forall p, ptr_encodes hc e p a ab) /\ zlen sb = w /\ zlen ab = w /\
    at_ mem (p + i * (2 * w)) sb /\ at_ mem (p + i * (2 * w) + w) ab.
Proof.
  intros c hc e w l tb mem p H. revert p. induction H as [|s0 a0 sb0 ab0 l r P1 P2 L1 L2 H IH]; intros p A i s a G.
  - unfold znth in G. destruct ((0 <=? i) && (i <? zlen (@nil (Z*Z)))) eqn:E; [|discriminate]. cbn in E. lia.
  - destruct (Z.eq_dec i 0) as [->|N].
    + unfold znth in G. rewrite zlen_cons in G. pose proof (zlen_nonneg _ l). replace ((0 <=? 0) && (0 <? 1 + zlen l)) with true in G by lia. cbn in G. injection G as <- <-.
      exists sb0, ab0. replace (p + 0 * (2 * w)) with p by lia. sp; auto.
      * exact (at_app1 _ _ _ _ A).
      * apply at_app2 in A. rewrite L1 in A. exact (at_app1 _ _ _ _ A).
    + assert (0 <= i) by (unfold znth in G; destruct (0 <=? i) eqn:E; [lia|discriminate]).
      assert (G' : znth l (i - 1) = Some (s, a)).
      { change ((s0, a0) :: l) with ([(s0, a0)] ++ l) in G. rewrite znth_app_r in G by (cbn; lia). exact G. }
      apply at_app2, at_app2 in A. rewrite L1, L2 in A. destruct (IH _ A _ _ _ G') as (sb & ab & Q1 & Q2 & Q3 & Q4 & Q5 & Q6).
      exists sb, ab. replace (p + w + w + (i - 1) * (2 * w)) with (p + i * (2 * w)) in Q5, Q6 by lia. sp; auto.
Qed.

Lemma fixed_pos : forall c e w, table_encoding e -> fixed_size c e = Some w -> 0 < w.
Proof.
  intros [m d fl c32 eh va te da] e w (ap & f & -> & AP & F) FS. cbn [In] in F.
  destruct c32, AP as [-> | ->]; destruct F as [<- |[<- |[<- |[<- |[<- |[]]]]]]; vm_compute in FS; injection FS as <-; lia.
Qed.
Section Table.
Variable c : cfi.
Variable es : list (Z * aentry).
Variable frames : list aframe.
Variable t : table.
Hypothesis HH : holds c es.
Hypothesis FR : frames_of c es frames.
Hypothesis TT : table_ok c frames t.
Hypothesis VA : 0 <= c_vaddr c < two64.

Lemma bsearch_ok : forall l w tb tail, t_mem t = tb ++ tail -> zlen (t_mem t) <= t_len t -> t_n t = zlen l -> table_encoding (t_enc t) ->
  fixed_size c (t_enc t) = Some w -> 0 < w ->
  table_bytes c (Cfi (t_mem t) (t_len t) (c_fle c) (c_c32 c) true (t_vaddr t) 0 (t_vaddr t)) (t_enc t) w l tb ->
  (forall i j x y, 0 <= i < j -> znth l i = Some x -> znth l j = Some y -> fst x < fst y) ->
  forall fuel a lo hi, 0 <= lo <= hi -> hi <= zlen l -> hi - lo < Z.of_nat fuel ->
  (forall i x, 0 <= i < lo -> znth l i = Some x -> i + 1 < zlen l /\ forall y, znth l (i + 1) = Some y -> fst y <= a) ->
  (forall i x, hi <= i -> znth l i = Some x -> a < fst x) ->
  exists o, bsearch c t (2 * w) fuel lo hi a = Ok o /\
    match o with
    | None => forall x, In x l -> a < fst x
    | Some off => exists i s v, znth l i = Some (s, v) /\ off = u64 (v - c_vaddr c) /\ s <= a /\ forall y, znth l (i + 1) = Some y -> a < fst y
    end.
Proof using.
  clear HH FR TT VA. intros l w tb tail EM TL TN TE FS W TB SO.
  assert (TC : table_cfi c t = Cfi (t_mem t) (t_len t) (c_fle c) (c_c32 c) true (t_vaddr t) 0 (t_vaddr t)).
  { unfold table_cfi. destruct TE as (ap & f & -> & AP & F). assert (Z.land (ap + f) 7 =? 2 = false) as ->; [|reflexivity].
    cbn [In] in F. destruct AP as [-> | ->]; destruct F as [<- |[<- |[<- |[<- |[<- |[]]]]]]; reflexivity. }
  assert (A : at_ (t_mem t) 0 tb) by (rewrite EM; apply (at_intro [] tb tail)).
  pose proof (table_len _ _ _ _ _ _ TB) as LEN. pose proof (at_bound _ _ _ A) as [_ AB].
  induction fuel as [|fuel IH]; intros a lo hi L1 L2 FU LO HI; [lia|]. cbn [bsearch].
  destruct (hi <=? lo) eqn:E0.
  - exists None. split; [reflexivity|]. assert (hi = lo) by lia. subst hi.
    destruct (Z.eq_dec lo 0) as [->|N0].
    + intros x X. apply In_nth_error in X as [n X]. apply (HI (Z.of_nat n)); [lia|]. unfold znth.
      assert (n < length l)%nat by (apply nth_error_Some; congruence). unfold zlen.
      replace ((0 <=? Z.of_nat n) && (Z.of_nat n <? Z.of_nat (length l))) with true by lia. rewrite Nat2Z.id. exact X.
    + exfalso. destruct (znth_in _ l (lo - 1) ltac:(lia)) as [x X]. destruct (LO (lo - 1) x ltac:(lia) X) as [Q1 Q2].
      destruct (znth_in _ l lo ltac:(lia)) as [y Y]. specialize (HI lo y ltac:(lia) Y). replace (lo - 1 + 1) with lo in Q2 by lia. specialize (Q2 y Y). lia.
  - assert (M : lo <= (lo + hi) / 2 < hi) by (split; [apply Z.div_le_lower_bound|apply Z.div_lt_upper_bound]; lia).
    generalize dependent ((lo + hi) / 2). intros idx M. rewrite TC.
    destruct (znth_in _ l idx ltac:(lia)) as [[s v] X].
    destruct (table_get _ _ _ _ _ _ _ _ TB A _ _ _ X) as (sb & ab & P1 & P2 & W1 & W2 & A1 & A2).
    assert (B1 : idx * (2 * w) + 2 * w <= t_len t) by nia.
    rewrite !Z.add_0_l in *. set (hc := Cfi (t_mem t) (t_len t) (c_fle c) (c_c32 c) true (t_vaddr t) 0 (t_vaddr t)) in *.
    rewrite (read_encoded_at hc (t_enc t) (idx * (2 * w)) s sb (P1 _) A1) by (cbn [c_dsize hc]; lia). rewrite W1.
    destruct (a <? s) eqn:E1.
    + apply IH; try lia; [exact LO|]. intros i x I Y. destruct (Z.eq_dec i idx) as [->|N]; [rewrite X in Y; injection Y as <-; cbn; lia|].
      destruct (Z_lt_le_dec i hi); [|apply (HI i x); [lia|exact Y]]. specialize (SO idx i (s, v) x ltac:(lia) X Y). cbn in SO. lia.
    + rewrite (read_encoded_at hc (t_enc t) (idx * (2 * w) + w) v ab (P2 _) A2) by (cbn [c_dsize hc]; lia). rewrite W2.
      destruct (idx + 1 <? t_n t) eqn:E2.
      * destruct (znth_in _ l (idx + 1) ltac:(lia)) as [[s2 v2] X2].
        destruct (table_get _ _ _ _ _ _ _ _ TB A _ _ _ X2) as (sb2 & ab2 & P12 & _ & W12 & _ & A12 & _).
        assert (B2 : (idx + 1) * (2 * w) + w <= t_len t) by nia.
        rewrite !Z.add_0_l in A12. replace (idx * (2 * w) + w + w) with ((idx + 1) * (2 * w)) by lia.
        rewrite (read_encoded_at hc (t_enc t) ((idx + 1) * (2 * w)) s2 sb2 (P12 _) A12) by (cbn [c_dsize hc]; lia).
        destruct (s2 <=? a) eqn:E3.
        -- apply IH; try lia; [|exact HI]. intros i x I Y. destruct (Z_lt_le_dec i lo); [apply (LO i x); [lia|exact Y]|].
           split; [lia|]. intros y Y2. destruct (Z.eq_dec i idx) as [->|N]; [rewrite X2 in Y2; injection Y2 as <-; cbn; lia|].
           destruct (Z.eq_dec (i + 1) (idx + 1)) as [Q|Q]; [lia|]. specialize (SO (i + 1) (idx + 1) y (s2, v2) ltac:(lia) Y2 X2). cbn in SO. lia.
        -- eexists. split; [reflexivity|]. exists idx, s, v. split; [exact X|]. split; [reflexivity|]. split; [lia|].
           intros y Y. rewrite X2 in Y. injection Y as <-. cbn. lia.
      * eexists. split; [reflexivity|]. exists idx, s, v. split; [exact X|]. split; [reflexivity|]. split; [lia|].
        intros y Y. exfalso. assert (idx + 1 < zlen l) by (unfold znth in Y; destruct ((0 <=? idx + 1) && (idx + 1 <? zlen l)) eqn:Q; [lia|discriminate]). lia.
Qed.

Lemma find_fde_table : forall h r a, inv c es frames h r -> exists res h' r', find_fde c (Some t) h a = Ok (res, h') /\ inv c es frames h' r' /\ answers c frames a res.
Proof using HH FR TT VA.
  intros h r a I. unfold find_fde. destruct (tfind_fde h a) as [g|] eqn:T.
  - exists (inl g), h, r. split; [reflexivity|]. split; [exact I|]. exact (tfind_answers _ _ _ _ _ _ _ I T).
  - destruct TT as (l & w & tb & tail & EM & TL & TN & TE & FS & TB & (C1 & C2 & C3)).
    assert (W := fixed_pos _ _ _ TE FS).
    unfold binary_search. rewrite (size_fixed _ _ _ None FS). cbn [obind]. replace (2 * w =? 0) with false by lia.
    pose proof (zlen_nonneg _ l).
    destruct (bsearch_ok l w tb tail EM TL TN TE FS W TB C3 (S (Z.to_nat (t_n t))) a 0 (t_n t)) as (o & -> & O); try lia.
    { intros i x J X. exfalso. assert (i < zlen l) by (unfold znth in X; destruct ((0 <=? i) && (i <? zlen l)) eqn:Q; [lia|discriminate]). lia. }
    cbn [obind]. destruct o as [off|].
    + destruct O as (i & s & v & X & -> & SA & NX).
      assert (IN : In (s, v) l) by (unfold znth in X; destruct ((0 <=? i) && (i <? zlen l)); [apply nth_error_In in X; exact X|discriminate]).
      destruct (C2 s v IN) as (f & IF & LF & -> & ->).
      assert (OE : u64 ((c_vaddr c + r_off f) mod two64 - c_vaddr c) = r_off f).
      { destruct FR as (_ & FM & _). destruct (FM f IF) as (contents & b & ? & ? & ? & ? & ? & ? & ? & J1 & J2 & J3 & J4 & J5 & _).
        pose proof (at_bound _ _ _ J4) as [O0 _]. pose proof (zlen_nonneg _ b). destruct HH as (? & _ & _ & _ & D & _).
        unfold u64. rewrite Zminus_mod_idemp_l. replace (c_vaddr c + r_off f - c_vaddr c) with (r_off f) by lia. apply Z.mod_small. lia. }
      rewrite OE. unfold fde_by_offset.
      destruct (frame_val c es frames HH FR f IF) as (n' & s' & e' & k & N' & KV & KI & REST). rewrite N'.
      replace (0 <? r_len f) with true in REST by lia. destruct REST as (g & FV & IS & INT).
      destruct (find_cie_ok c es frames HH FR h r (r_cie f) I KI k KV) as (h1 & r1 & FC1 & INV1 & _ & _).
      rewrite (INT _ _ FC1). destruct (tsearch_ok c es frames HH FR h1 r1 f g INV1 IF LF FV IS) as (h2 & TS & INV2 & IG & _ & HN & _). rewrite TS. cbn beta iota.
      destruct (is_frame_range c f g IS) as [S1 S2].
      assert (INV3 : exists r3, inv c es frames (if h_next h2 =? r_off f then Cache n' (h_cies h2) (h_fdes h2) else h2) r3).
      { destruct (h_next h2 =? r_off f) eqn:E; [|exists r1; exact INV2]. destruct INV2 as (J1 & J2 & d & D1 & D2 & D3).
        destruct FR as (_ & FM & _). destruct (FM f IF) as (contents & b & ? & ? & ? & ? & ? & ? & ? & IE & _).
        destruct r1 as [|[o0 xx] r1]; cbn [next_is] in D2; [exfalso; destruct D2 as [_ D2]; replace (h_next h2) with (r_off f) in D2 by lia; exact (D2 _ IE)|].
        assert (o0 = r_off f) as -> by lia. destruct (es_next c es frames HH FR _ _ _ _ D1) as (n & y & Y1 & Y2 & Y3 & _). rewrite N' in Y1. injection Y1 as <- <-.
        destruct xx as [|co b0]; [destruct Y2|]. exists r1. split; [exact J1|]. split; [exact J2|]. exists (d ++ [(r_off f, AFDE co b0)]). split; [rewrite <- app_assoc; exact D1|].
        split; [exact Y3|]. intros f0 co0 b1 IF0 IN0 L0. apply in_app_or in IN0 as [IN0|[IN0|[]]]; [exact (D3 f0 co0 b1 IF0 IN0 L0)|].
        injection IN0 as O1 _ _. exists g. split; [exact IG|].
        destruct (frame_val c es frames HH FR f0 IF0) as (n0 & s0 & e0 & k0 & N0 & KV0 & KI0 & REST0). replace (0 <? r_len f0) with true in REST0 by lia.
        destruct REST0 as (g0 & FV0 & IS0 & _). rewrite <- O1 in FV0. rewrite (fde_val_det _ _ _ _ FV FV0). exact IS0. }
      destruct INV3 as (r3 & INV3). cbn [obind]. replace (a <? fd_start g) with false by lia. destruct (fd_end g <=? a) eqn:E.
      * eexists _, _, r3. split; [reflexivity|]. split; [exact INV3|]. split; [reflexivity|]. intros f0 IF0 CV. unfold covers in CV.
        assert (IN0 := C1 f0 IF0 ltac:(lia)). apply In_nth_error in IN0 as [j Q].
        assert (QJ : znth l (Z.of_nat j) = Some (r_start f0, (c_vaddr c + r_off f0) mod two64)).
        { unfold znth. assert (j < length l)%nat by (apply nth_error_Some; congruence). unfold zlen.
          replace ((0 <=? Z.of_nat j) && (Z.of_nat j <? Z.of_nat (length l))) with true by lia. rewrite Nat2Z.id. exact Q. }
        assert (I0 : 0 <= i < zlen l) by (unfold znth in X; destruct ((0 <=? i) && (i <? zlen l)) eqn:Q0; [lia|discriminate]).
        destruct (Z_lt_le_dec (Z.of_nat j) i) as [L|L].
        -- pose proof (C3 (Z.of_nat j) i _ _ ltac:(lia) QJ X) as S0. cbn in S0.
           destruct FR as (_ & _ & _ & DJ). assert (f0 = f) by (apply (DJ f0 f (r_start f) IF0 IF); unfold covers; lia). subst f0. lia.
        -- destruct (Z.eq_dec (Z.of_nat j) i) as [E1|N1].
           ++ rewrite E1, X in QJ. injection QJ as Q1 _. destruct FR as (_ & _ & _ & DJ). assert (f0 = f) by (apply (DJ f0 f (r_start f) IF0 IF); unfold covers; lia). subst f0. lia.
           ++ assert (JL : Z.of_nat j < zlen l) by (unfold znth in QJ; destruct ((0 <=? Z.of_nat j) && (Z.of_nat j <? zlen l)) eqn:Q0; [lia|discriminate]).
              destruct (znth_in _ l (i + 1) ltac:(lia)) as [y Y]. pose proof (NX y Y).
              destruct (Z.eq_dec (Z.of_nat j) (i + 1)) as [E2|N2]; [rewrite E2, Y in QJ; injection QJ as ->; cbn in *; lia|].
              pose proof (C3 (i + 1) (Z.of_nat j) _ _ ltac:(lia) Y QJ) as S0. cbn in S0. lia.
      * eexists _, _, r3. split; [reflexivity|]. split; [exact INV3|]. exists f. split; [exact IF|]. split; [unfold covers; lia|exact IS].
    + exists (inr DWARF_E_NO_MATCH), h, r. split; [reflexivity|]. split; [exact I|]. split; [reflexivity|]. intros f IF CV. unfold covers in CV.
      specialize (O _ (C1 f IF ltac:(lia))). cbn in O. lia.
Qed.
Lemma lookups_table : forall q h r, inv c es frames h r -> exists rs h' r', lookups c (Some t) h q = Ok (rs, h') /\ inv c es frames h' r' /\ Forall2 (answers c frames) q rs.
Proof using HH FR TT VA.
  induction q as [|a q IH]; intros h r I; cbn [lookups].
  - exists [], h, r. split; [reflexivity|]. split; [exact I|constructor].
  - destruct (find_fde_table h r a I) as (res & h1 & r1 & -> & I1 & A1). cbn [obind]. destruct (IH h1 r1 I1) as (rs & h2 & r2 & -> & I2 & A2). cbn [obind].
    exists (res :: rs), h2, r2. split; [reflexivity|]. split; [exact I2|]. constructor; assumption.
Qed.
End Table.

(* ---- the header ---- *)
(* a .eh_frame_hdr section at vaddr for .eh_frame c with the table entries l, one for every FDE *)
Definition header_ok (c : cfi) (frames : list aframe) (hdr : bytes) (vaddr : Z) : Prop :=
  exists pe ce te pb nb tb tail l w,
    hdr = [1; pe; ce; te] ++ pb ++ nb ++ tb ++ tail /\
    Z.land pe 7 <> 2 /\ Z.land ce 7 <> 2 /\
    ptr_encodes (hdr_view c hdr vaddr) pe 4 (c_vaddr c) pb /\
    ptr_encodes (hdr_view c hdr vaddr) ce (4 + zlen pb) (zlen l) nb /\
    table_encoding te /\ fixed_size c te = Some w /\ table_bytes c (hdr_view c hdr vaddr) te w l tb /\
    table_lists c frames l.

Lemma ptr_not_omit : forall c e p a b, ptr_encodes c e p a b -> e =? 255 = false.
Proof. intros c e p a b (ap & f & base & v & -> & B & F & _). destruct B, F; reflexivity || lia. Qed.
Lemma fixed_ptr : forall c c' e p a b, table_encoding e -> c_fle c' = c_fle c -> c_c32 c' = c_c32 c -> c_data c' = c_data c ->
  ptr_encodes c e p a b -> ptr_encodes c' e p a b.
Proof.
  intros c c' e p a b (ap0 & f0 & E0 & AP & F0) E1 E2 E3 (ap & f & base & v & E & B & F & ->). exists ap, f, base, v. split; [exact E|].
  assert (AA : ap = 0 \/ ap = 48). { cbn [In] in F0. destruct B; destruct F; lia. }
  split; [|split; [|reflexivity]].
  - destruct B; try lia; [constructor|]. rewrite <- E3. constructor.
  - assert (AW : addr_width c' = addr_width c) by (unfold addr_width; rewrite E2; reflexivity).
    destruct F; rewrite <- ?E1, <- ?AW; constructor; rewrite ?AW; assumption.
Qed.
Lemma table_view : forall c c1 c2 e w l tb, table_encoding e -> c_fle c2 = c_fle c1 -> c_c32 c2 = c_c32 c1 -> c_data c2 = c_data c1 ->
  table_bytes c c1 e w l tb -> table_bytes c c2 e w l tb.
Proof. intros c c1 c2 e w l tb TE E1 E2 E3 H. induction H; constructor; auto; intro p; apply (fixed_ptr c1 c2); auto. Qed.

Lemma header_table : forall c frames hdr vaddr, header_ok c frames hdr vaddr -> zlen hdr < two63 ->
  exists t, eh_table c hdr vaddr = Ok (Some t) /\ match t with Some t => table_ok c frames t | None => forall f, In f frames -> r_len f <= 0 end.
Proof.
  intros c frames hdr vaddr (pe & ce & te & pb & nb & tb & tail & l & w & EH & P2 & C2 & PP & PC & TE & FS & TB & TL) HL.
  assert (W := fixed_pos _ _ _ TE FS). pose proof (table_len _ _ _ _ _ _ TB) as LEN. pose proof (zlen_nonneg _ l) as L0.
  pose proof (zlen_nonneg _ pb). pose proof (zlen_nonneg _ nb). pose proof (zlen_nonneg _ tail).
  assert (ZL : zlen hdr = 4 + zlen pb + zlen nb + zlen tb + zlen tail) by (rewrite EH, !zlen_app; change (zlen [1; pe; ce; te]) with 4; lia).
  assert (A : at_ hdr 0 hdr) by (pose proof (at_intro [] hdr []) as Q; cbn [app] in Q; rewrite app_nil_r in Q; exact Q).
  rewrite EH in A at 2.
  assert (A4 := at_app2 _ _ _ _ A). change (0 + zlen [1; pe; ce; te]) with 4 in A4. cbn [app] in A.
  assert (V : forall e, Z.land e 7 <> 2 -> hdr_cfi c hdr vaddr e = hdr_view c hdr vaddr).
  { intros e E. unfold hdr_cfi, hdr_view. replace (Z.land e 7 =? 2) with false by lia. reflexivity. }
  unfold eh_table, parse_eh_frame_hdr. replace (zlen hdr <? 4) with false by lia.
  rewrite (byte_at_at _ _ _ _ A). cbn [obind Z.eqb Pos.eqb negb]. apply at_shift in A. change (0 + 1) with 1 in A.
  rewrite (byte_at_at _ _ _ _ A). cbn [obind]. apply at_shift in A. change (1 + 1) with 2 in A.
  rewrite (byte_at_at _ _ _ _ A). cbn [obind]. apply at_shift in A. change (2 + 1) with 3 in A.
  rewrite (byte_at_at _ _ _ _ A). cbn [obind].
  rewrite (ptr_not_omit _ _ _ _ _ PP), (ptr_not_omit _ _ _ _ _ PC), !V by assumption.
  rewrite (read_encoded_at _ _ _ _ _ PP (at_app1 _ _ _ _ A4)) by (cbn [c_dsize hdr_view]; lia).
  assert (A5 := at_app2 _ _ _ _ A4).
  rewrite (read_encoded_at _ _ _ _ _ PC (at_app1 _ _ _ _ A5)) by (cbn [c_dsize hdr_view]; lia).
  assert (T1 : negb (te =? 255) && negb (Z.land te (255 - 8) =? 1) = true).
  { destruct TE as (ap & f & -> & AP & F). cbn [In] in F. destruct AP as [-> | ->]; destruct F as [<- |[<- |[<- |[<- |[<- |[]]]]]]; reflexivity. }
  rewrite <- andb_assoc, T1, andb_true_r. destruct (zlen l =? 0) eqn:E; cbn [negb obind].
  - exists None. split; [reflexivity|]. intros f IF. destruct (Z_lt_le_dec 0 (r_len f)) as [G|G]; [|exact G]. exfalso.
    destruct TL as (T & _). specialize (T f IF G). destruct l; [destruct T|rewrite zlen_cons in *; pose proof (zlen_nonneg _ l); lia].
  - rewrite (size_fixed _ _ _ None FS). cbn [obind]. replace (w =? 0) with false by lia.
    set (pos := 4 + zlen pb + zlen nb).
    assert (SZ : ((zlen hdr - pos) / w / 2 <? zlen l) = false).
    { rewrite Z.div_div by lia. assert (zlen l <= (zlen hdr - pos) / (w * 2)); [|lia]. apply Z.div_le_lower_bound; [lia|]. unfold pos. nia. }
    rewrite SZ, Z.eqb_refl. eexists. split; [reflexivity|].
    assert (SK : skipn (Z.to_nat pos) hdr = tb ++ tail).
    { rewrite EH. rewrite !app_assoc. rewrite <- (app_assoc _ tb tail). rewrite skipn_app.
      assert (LL : length (([1; pe; ce; te] ++ pb) ++ nb) = Z.to_nat pos).
      { apply Nat2Z.inj. change (Z.of_nat (length (([1; pe; ce; te] ++ pb) ++ nb))) with (zlen (([1; pe; ce; te] ++ pb) ++ nb)). rewrite !zlen_app. change (zlen [1; pe; ce; te]) with 4. unfold pos. lia. }
      rewrite <- LL at 1 2. rewrite skipn_all, LL, Nat.sub_diag. reflexivity. }
    exists l, w, tb, tail. cbn [t_mem t_len t_n t_enc t_vaddr]. rewrite SK. sp; auto.
    + rewrite zlen_app. lia.
    + apply (table_view c (hdr_view c hdr vaddr)); auto.
Qed.
