(* dwarf_next_cfi returns the entries the bytes of the section encode. *)
From Verif Require Import Base LebModel LebSpec LebProof DwModel Slice CfiModel CfiSpec CfiProof CfiSafe NcfiModel NcfiSpec.

Ltac sp := lazymatch goal with |- at_ _ _ _ => idtac | |- _ /\ _ => split; sp | _ => idtac end.

Lemma memchr0_at : forall (mem : bytes) (s : bytes) p n, Forall (fun x => 1 <= x < 256) s -> at_ mem p (s ++ [0]) ->
  zlen s < Z.of_nat n -> memchr0 mem n p = Ok (Some (p + zlen s)).
Proof.
  intros mem. induction s as [|x s IH]; intros p n F A N; (destruct n as [|n]; [pose proof (zlen_nonneg _ (@nil Z)); cbn in N; try pose proof (zlen_nonneg _ (x :: s)); lia|]); cbn [memchr0].
  - rewrite (byte_at_at _ _ _ _ A). cbn [obind Z.eqb]. do 2 f_equal. cbn. lia.
  - cbn [app] in A. rewrite (byte_at_at _ _ _ _ A). cbn [obind]. inversion F as [|? ? X F']; subst.
    replace (x =? 0) with false by lia. rewrite zlen_cons in N |- *. rewrite (IH (p + 1) n F' (at_shift _ _ _ _ A)) by lia.
    do 2 f_equal. lia.
Qed.
Lemma size_fixed : forall c e w p, fixed_size c e = Some w -> encoded_value_size c e p = Ok w.
Proof.
  intros c e w p H. unfold fixed_size in H. unfold encoded_value_size. destruct (e =? 255); [injection H as <-; reflexivity|].
  destruct (Z.land e 7) as [|[[[?|?|]|[?|?|]|]|[[?|?|]|[?|?|]|]|]|?] eqn:K; try discriminate; injection H as <-; reflexivity.
Qed.
Lemma size_none : forall c e, exists s, encoded_value_size c e None = Ok s.
Proof.
  intros c e. unfold encoded_value_size. destruct (e =? 255); [eexists; reflexivity|].
  destruct (Z.land e 7 =? 2); [eexists; reflexivity|]. destruct (Z.land e 7 =? 3); [eexists; reflexivity|].
  destruct (Z.land e 7 =? 4); [eexists; reflexivity|]. destruct (Z.land e 7 =? 0); [eexists; reflexivity|].
  destruct (Z.land e 7 =? 1); eexists; reflexivity.
Qed.
Lemma aug_loop_at : forall c s data, letters c s data -> forall ap p fs n, at_ (c_mem c) ap (s ++ [0]) -> at_ (c_mem c) p data ->
  zlen s < Z.of_nat n -> exists fs', aug_loop c n ap p fs = Ok (p + zlen data, fs').
Proof.
  intros c s data L. induction L as [|e s b L IH|e s b L IH|e ptr s b F L IH|s b L IH]; intros ap p fs n A P N;
    (destruct n as [|n]; [match type of N with zlen ?l < _ => pose proof (zlen_nonneg _ l) end; lia|]); cbn [aug_loop];
    cbn [app] in A; rewrite (byte_at_at _ _ _ _ A); cbn [obind Z.eqb Pos.eqb orb]; try rewrite zlen_cons in N.
  - exists fs. do 2 f_equal. cbn. lia.
  - rewrite (byte_at_at _ _ _ _ P). cbn [obind]. destruct (size_none c e) as [z ->]. cbn [obind].
    destruct (IH (ap + 1) (p + 1) (u64 (fs + z)) n (at_shift _ _ _ _ A) (at_shift _ _ _ _ P) ltac:(lia)) as [fs' ->].
    exists fs'. rewrite zlen_cons. do 2 f_equal. lia.
  - rewrite (byte_at_at _ _ _ _ P). cbn [obind]. destruct (size_none c e) as [z ->]. cbn [obind].
    destruct (IH (ap + 1) (p + 1) (u64 (fs + z)) n (at_shift _ _ _ _ A) (at_shift _ _ _ _ P) ltac:(lia)) as [fs' ->].
    exists fs'. rewrite zlen_cons. do 2 f_equal. lia.
  - rewrite (byte_at_at _ _ _ _ P). cbn [obind]. rewrite (size_fixed _ _ _ _ F). cbn [obind].
    destruct (IH (ap + 1) (p + 1 + zlen ptr) fs n (at_shift _ _ _ _ A)) as [fs' ->].
    + apply at_app2, (at_shift _ _ _ _ P).
    + lia.
    + exists fs'. rewrite zlen_cons, zlen_app. do 2 f_equal. lia.
  - destruct (IH (ap + 1) p fs n (at_shift _ _ _ _ A) P ltac:(lia)) as [fs' ->]. exists fs'. reflexivity.
Qed.
(* the size of the data of the FDEs, for strings without 'R' *)
Lemma aug_loop_fsize : forall c s data k, fde_data c s data k -> ~ In 82 s -> forall ap p fs n, at_ (c_mem c) ap (s ++ [0]) -> at_ (c_mem c) p data ->
  zlen s < Z.of_nat n -> 0 <= fs -> fs + k < two64 -> aug_loop c n ap p fs = Ok (p + zlen data, fs + k).
Proof.
  assert (W : forall c e w, fixed_size c e = Some w -> 0 <= w).
  { intros c e w H. unfold fixed_size in H. destruct (e =? 255); [injection H as <-; lia|]. unfold addr_width in H.
    destruct (Z.land e 7) as [|[[[?|?|]|[?|?|]|]|[[?|?|]|[?|?|]|]|]|?]; try discriminate; injection H as <-; destruct (c_c32 c); lia. }
  assert (NN : forall c s data k, fde_data c s data k -> 0 <= k) by (intros c s data k H; induction H; try lia; specialize (W _ _ _ H); lia).
  intros c s data k L. induction L as [|e w s b k F L IH|e s b k L IH|e ptr s b k F L IH|s b k L IH]; intros NR ap p fs n A P N FS B;
    (destruct n as [|n]; [match type of N with zlen ?l < _ => pose proof (zlen_nonneg _ l) end; lia|]); cbn [aug_loop];
    cbn [app] in A; rewrite (byte_at_at _ _ _ _ A); cbn [obind Z.eqb Pos.eqb orb]; try rewrite zlen_cons in N.
  - do 2 f_equal; cbn; lia.
  - rewrite (byte_at_at _ _ _ _ P). cbn [obind]. rewrite (size_fixed _ _ _ _ F). cbn [obind].
    pose proof (W _ _ _ F). pose proof (NN _ _ _ _ L). rewrite u64_small by lia.
    rewrite (IH (fun q => NR (or_intror q)) (ap + 1) (p + 1) (fs + w) n (at_shift _ _ _ _ A) (at_shift _ _ _ _ P)) by lia.
    rewrite zlen_cons. do 2 f_equal; lia.
  - exfalso. apply NR. left. reflexivity.
  - rewrite (byte_at_at _ _ _ _ P). cbn [obind]. rewrite (size_fixed _ _ _ _ F). cbn [obind].
    rewrite (IH (fun q => NR (or_intror q)) (ap + 1) (p + 1 + zlen ptr) fs n (at_shift _ _ _ _ A)); try lia.
    + rewrite zlen_cons, zlen_app. do 2 f_equal. lia.
    + apply at_app2, (at_shift _ _ _ _ P).
  - rewrite (IH (fun q => NR (or_intror q)) (ap + 1) p fs n (at_shift _ _ _ _ A) P) by lia. reflexivity.
Qed.

Lemma aug_head : forall c tail data d, aug_data c tail data d -> forall ap, at_ (c_mem c) ap (tail ++ [0]) ->
  exists z, byte_at (c_mem c) ap = Ok z /\ z <> 101 /\
    ((z =? 122) = true /\ (exists n, d = n ++ data /\ uleb_of (zlen data) n) \/ (z =? 122) = false /\ d = data /\ letters c tail data).
Proof.
  intros c tail data d H ap A. destruct H as [s data n U|s data L].
  - cbn [app] in A. exists 122. split; [exact (byte_at_at _ _ _ _ A)|]. split; [lia|]. left. split; [reflexivity|]. exists n. split; [reflexivity|exact U].
  - destruct L as [|e s b L|e s b L|e ptr s b F L|s b L]; cbn [app] in A;
      (eexists; split; [exact (byte_at_at _ _ _ _ A)|]; split; [lia|]; right; split; [reflexivity|]; split; [reflexivity|]; constructor; assumption).
Qed.
Lemma addr_width_pos : forall c, 4 <= addr_width c <= 8.
Proof. intros c. unfold addr_width. destruct (c_c32 c); lia. Qed.

Lemma cie_tail_at : forall c next limit aug ap caf daf ra p tail data d ins,
  aug_data c tail data d -> at_ (c_mem c) ap (tail ++ [0]) -> at_ (c_mem c) p (d ++ ins) -> p + zlen (d ++ ins) = limit ->
  limit < two63 ->
  exists i, cie_tail c next limit aug ap (ap + zlen tail) caf daf ra p = Ok (NEntry next (ECie i)) /\
    i_aug i = aug /\ i_caf i = caf /\ i_daf i = daf /\ i_ra i = ra /\ at_ (c_mem c) (i_adata i) data /\
    i_asize i = zlen data /\ p <= i_adata i /\ i_ins i = i_adata i + zlen data /\ at_ (c_mem c) (i_ins i) ins /\ i_ins i + zlen ins = limit /\ i_end i = limit.
Proof.
  intros c next limit aug ap caf daf ra p tail data d ins H A D E LIM. unfold cie_tail.
  pose proof (at_bound _ _ _ D) as [P0 _]. pose proof (zlen_nonneg _ ins). pose proof (zlen_nonneg _ data). rewrite zlen_app in E.
  destruct (aug_head _ _ _ _ H _ A) as (z & Z1 & _ & [(Z2 & n & -> & U) | (Z2 & -> & L)]); rewrite Z1; cbn [obind]; rewrite Z2.
  - pose proof (uleb_len _ _ U). rewrite zlen_app in E. replace (limit <=? p) with false by lia.
    rewrite (uleb_at _ _ limit _ _ U (at_app1 _ _ _ _ (at_app1 _ _ _ _ D))) by lia. cbn [obind].
    rewrite u64_small by lia. replace (limit - (p + zlen n) <? zlen data) with false by lia.
    eexists. split; [reflexivity|]. cbn. rewrite <- app_assoc in D. apply at_app2 in D.
    sp; try lia; [exact (at_app1 _ _ _ _ D)|]. apply at_app2 in D. exact D.
  - pose proof (zlen_nonneg _ tail).
    destruct (aug_loop_at _ _ _ L ap p 0 (Z.to_nat (ap + zlen tail - ap + 1)) A (at_app1 _ _ _ _ D) ltac:(lia)) as [fs ->]. cbn [obind].
    eexists. split; [reflexivity|]. cbn. replace (p + zlen data - p) with (zlen data) by lia. rewrite u64_small by lia.
    sp; try lia; [exact (at_app1 _ _ _ _ D)|]. apply at_app2 in D. exact D.
Qed.

Lemma cie_numbers_at : forall c a next limit aug p eh tail ptr caf daf ra d,
  a_aug a = eh ++ tail -> (eh = [] /\ ptr = [] \/ eh = [101; 104] /\ zlen ptr = addr_width c) ->
  uleb_of (a_caf a) caf -> sleb_of (a_daf a) daf -> (if a_ver a <? 3 then ra = [a_ra a] else uleb_of (a_ra a) ra) ->
  aug_data c tail (a_data a) d -> at_ (c_mem c) aug (a_aug a ++ [0]) ->
  at_ (c_mem c) p (ptr ++ caf ++ daf ++ ra ++ d ++ a_ins a) -> p + zlen (ptr ++ caf ++ daf ++ ra ++ d ++ a_ins a) = limit ->
  limit < two63 ->
  exists i, cie_numbers c next limit (a_ver a) aug (aug + zlen (a_aug a)) p = Ok (NEntry next (ECie i)) /\
    i_aug i = aug /\ i_caf i = a_caf a /\ i_daf i = a_daf a /\ i_ra i = a_ra a /\ at_ (c_mem c) (i_adata i) (a_data a) /\
    i_asize i = zlen (a_data a) /\ p <= i_adata i /\ i_ins i = i_adata i + zlen (a_data a) /\ at_ (c_mem c) (i_ins i) (a_ins a) /\ i_ins i + zlen (a_ins a) = limit /\ i_end i = limit.
Proof.
  intros c a next limit aug p eh tail ptr caf daf ra d EA EH U1 S1 R1 AD A P E LIM. unfold cie_numbers.
  pose proof (uleb_len _ _ U1). pose proof (sleb_len _ _ S1). pose proof (zlen_nonneg _ (d ++ a_ins a)). pose proof (zlen_nonneg _ ptr).
  assert (0 < zlen ra) as RA.
  { destruct (a_ver a <? 3); [subst ra; cbn; lia|]. apply (uleb_len _ _ R1). }
  rewrite !zlen_app in E. rewrite zlen_app in *.
  assert (P1 : at_ (c_mem c) (p + zlen ptr) (caf ++ daf ++ ra ++ d ++ a_ins a)) by (apply at_app2 in P; exact P).
  assert (P2 := at_app2 _ _ _ _ P1). assert (P3 := at_app2 _ _ _ _ P2). assert (P4 := at_app2 _ _ _ _ P3).
  assert (G : forall ap, at_ (c_mem c) ap (tail ++ [0]) -> ap + zlen tail = aug + zlen (a_aug a) -> exists i,
    (if limit <=? p + zlen ptr then Ok (NBad DWARF_E_INVALID_DWARF (Some next)) else
     ' (caf, p) <- get_uleb128 (c_mem c) (p + zlen ptr) limit ;;
     if limit <=? p then Ok (NBad DWARF_E_INVALID_DWARF (Some next)) else
     ' (daf, p) <- get_sleb128 (c_mem c) p limit ;;
     if limit <=? p then Ok (NBad DWARF_E_INVALID_DWARF (Some next)) else
     ' (ra, p) <- (if 3 <=? a_ver a then get_uleb128 (c_mem c) p limit else r <- byte_at (c_mem c) p ;; Ok (r, p + 1)) ;;
     cie_tail c next limit aug ap (aug + zlen (a_aug a)) caf daf ra p) = Ok (NEntry next (ECie i)) /\
    i_aug i = aug /\ i_caf i = a_caf a /\ i_daf i = a_daf a /\ i_ra i = a_ra a /\ at_ (c_mem c) (i_adata i) (a_data a) /\
    i_asize i = zlen (a_data a) /\ p <= i_adata i /\ i_ins i = i_adata i + zlen (a_data a) /\ at_ (c_mem c) (i_ins i) (a_ins a) /\ i_ins i + zlen (a_ins a) = limit /\ i_end i = limit).
  { intros ap AP AE. replace (limit <=? p + zlen ptr) with false by lia.
    rewrite (uleb_at _ _ limit _ _ U1 (at_app1 _ _ _ _ P1)) by lia. cbn [obind].
    replace (limit <=? p + zlen ptr + zlen caf) with false by lia.
    rewrite (sleb_at _ _ limit _ _ S1 (at_app1 _ _ _ _ P2)) by lia. cbn [obind].
    replace (limit <=? p + zlen ptr + zlen caf + zlen daf) with false by lia.
    assert ((if 3 <=? a_ver a then get_uleb128 (c_mem c) (p + zlen ptr + zlen caf + zlen daf) limit
             else r <- byte_at (c_mem c) (p + zlen ptr + zlen caf + zlen daf) ;; Ok (r, p + zlen ptr + zlen caf + zlen daf + 1))
            = Ok (a_ra a, p + zlen ptr + zlen caf + zlen daf + zlen ra)) as ->.
    { destruct (a_ver a <? 3) eqn:V.
      - replace (3 <=? a_ver a) with false by lia. subst ra. cbn [app] in P3. rewrite (byte_at_at _ _ _ _ P3). reflexivity.
      - replace (3 <=? a_ver a) with true by lia. rewrite (uleb_at _ _ limit _ _ R1 (at_app1 _ _ _ _ P3)) by lia. reflexivity. }
    cbn [obind]. rewrite <- AE.
    destruct (cie_tail_at c next limit aug ap (a_caf a) (a_daf a) (a_ra a) _ tail (a_data a) d (a_ins a) AD AP P4) as (i & J0 & J1 & J2 & J3 & J4 & J5 & J6 & J7 & J8); [rewrite zlen_app; lia|lia|].
    exists i. sp; try assumption; try apply J8. lia. }
  destruct EH as [[-> ->] | [-> PL]].
  - cbn [app] in EA. rewrite EA in A |- *. destruct (aug_head _ _ _ _ AD aug A) as (z & Z1 & Z2 & _). rewrite Z1. cbn [obind].
    replace (z =? 101) with false by lia. cbn [obind]. specialize (G aug A ltac:(rewrite EA; lia)). rewrite EA in G. cbn in G.
    replace (p + zlen (@nil Z)) with p in G by (cbn; lia). replace (p + 0) with p in G by lia. exact G.
  - rewrite EA in A. cbn [app] in A. rewrite (byte_at_at _ _ _ _ A). cbn [obind Z.eqb Pos.eqb].
    rewrite (byte_at_at _ _ _ _ (at_shift _ _ _ _ A)). cbn [obind Z.eqb Pos.eqb]. rewrite <- PL.
    apply G.
    + apply at_shift, at_shift in A. replace (aug + 2) with (aug + 1 + 1) by lia. exact A.
    + rewrite EA. cbn [app]. rewrite !zlen_cons. lia.
Qed.

Lemma cie_entry_at : forall c a next limit p b, cie_bytes c a b -> at_ (c_mem c) p b -> p + zlen b = limit -> limit < two63 ->
  exists i, cie_entry c next limit p = Ok (NEntry next (ECie i)) /\ describes c limit (ACIE a) (ECie i).
Proof.
  intros c a next limit p b H A E LIM. destruct H as [eh tail ptr caf daf ra data V EA EH FT U1 S1 R1 AD]. unfold cie_entry.
  pose proof (uleb_len _ _ U1). pose proof (sleb_len _ _ S1). 
  assert (0 < zlen ra) as RA.
  { destruct (a_ver a <? 3); [subst ra; cbn; lia|]. apply (uleb_len _ _ R1). }
  pose proof (zlen_nonneg _ (data ++ a_ins a)). pose proof (zlen_nonneg _ ptr). pose proof (at_bound _ _ _ A) as [P0 _].
  assert (FA : Forall (fun x => 1 <= x < 256) (a_aug a)).
  { rewrite EA. apply Forall_app. split; [|exact FT]. destruct EH as [[-> _] | [-> _]]; repeat constructor; lia. }
  cbn [app] in A. rewrite (byte_at_at _ _ _ _ A). cbn [obind].
  replace (negb (a_ver a =? 1) && ((a_ver a <? 3) || (4 <? a_ver a))) with false by (cbn in V; lia).
  apply at_shift in A. cbn [app] in E. rewrite zlen_cons in E.
  set (rest := (if a_ver a =? 4 then [addr_width c; 0] else []) ++ ptr ++ caf ++ daf ++ ra ++ data ++ a_ins a) in *.
  assert (A1 : at_ (c_mem c) (p + 1) (a_aug a ++ [0])).
  { apply (at_app1 _ _ _ rest). rewrite <- app_assoc. exact A. }
  pose proof (zlen_nonneg _ (a_aug a)). pose proof (zlen_nonneg _ rest).
  change (0 :: rest) with ([0] ++ rest) in E, A. rewrite !zlen_app in E. change (zlen [0]) with 1 in E.
  rewrite (memchr0_at _ (a_aug a) (p + 1) _ FA A1) by lia. cbn [obind].
  rewrite app_assoc in A. apply at_app2 in A. rewrite zlen_app in A. change (zlen [0]) with 1 in A.
  assert (G : forall q, q = p + 1 + zlen (a_aug a) + 1 + zlen (if a_ver a =? 4 then [addr_width c; 0] else []) -> exists i,
    cie_numbers c next limit (a_ver a) (p + 1) (p + 1 + zlen (a_aug a)) q = Ok (NEntry next (ECie i)) /\ describes c limit (ACIE a) (ECie i)).
  { intros q ->. unfold rest in E, A. rewrite zlen_app in E. apply at_app2 in A.
    destruct (cie_numbers_at c a next limit (p + 1) (p + 1 + zlen (a_aug a) + 1 + zlen (if a_ver a =? 4 then [addr_width c; 0] else []))
                eh tail ptr caf daf ra data EA EH U1 S1 R1 AD A1) as (i & I0 & I1 & I2 & I3 & I4 & I5 & I6 & IX & IY & I7 & I8 & I9).
    - replace (p + 1 + zlen (a_aug a) + 1) with (p + 1 + (zlen (a_aug a) + 1)) by lia. exact A.
    - lia.
    - exact LIM.
    - exists i. split; [exact I0|]. unfold describes. rewrite I1. sp; try assumption. match type of IX with context [zlen ?l] => pose proof (zlen_nonneg _ l) end. destruct (a_ver a =? 4); cbn in IX; lia. }
  destruct (a_ver a =? 4) eqn:V4.
  - replace (4 <=? a_ver a) with true by lia. unfold rest in E, A. rewrite zlen_app in E. change (zlen [addr_width c; 0]) with 2 in E.
    rewrite !zlen_app in E. rewrite zlen_app in *.
    replace (limit - (p + 1 + zlen (a_aug a) + 1) <? 5) with false by lia.
    replace (p + 1 + (zlen (a_aug a) + 1)) with (p + 1 + zlen (a_aug a) + 1) in A by lia. cbn [app] in A.
    rewrite (byte_at_at _ _ _ _ A). cbn [obind]. rewrite Z.eqb_refl. cbn [negb].
    rewrite (byte_at_at _ _ _ _ (at_shift _ _ _ _ A)). cbn [obind Z.eqb negb]. apply G. change (zlen [addr_width c; 0]) with 2. lia.
  - replace (4 <=? a_ver a) with false by (cbn in V; lia). apply G. cbn. lia.
Qed.

Lemma id_entry_at : forall c x (d64 : bool) v body next limit off p, body_of c x body -> p = off + (if d64 then 12 else 4) -> 0 <= off ->
  id_of c d64 off p x v -> 0 <= v < 256 ^ osize d64 -> at_ (c_mem c) p (enc (c_fle c) (osize d64) v ++ body) ->
  p + osize d64 + zlen body = limit -> limit < two63 ->
  exists r, id_entry c (osize d64) next limit p = Ok (NEntry next r) /\ describes c limit x r.
Proof.
  intros c x d64 v body next limit off p B P O I0 V A E LIM. unfold id_entry.
  assert (OS : 0 <= osize d64) by (destruct d64; cbn; lia).
  rewrite (rd_at _ _ _ _ _ OS V (at_app1 _ _ _ _ A)). cbn [obind].
  apply at_app2 in A. rewrite zlen_enc in A by exact OS. pose proof (zlen_nonneg _ body).
  destruct x as [a|o contents]; cbn [id_of body_of] in I0, B.
  - destruct (cie_entry_at c a next limit (p + osize d64) body B A E LIM) as (i & I1 & I2).
    exists (ECie i). split; [|exact I2]. subst v. destruct (c_eh c); cbn [negb andb].
    + rewrite andb_false_r. cbn [andb]. cbn [Z.eqb]. exact I1.
    + destruct d64; cbn [osize Z.eqb Pos.eqb andb].
      * change (256 ^ 8 - 1 =? two64 - 1) with true. exact I1.
      * change (256 ^ 4 - 1 =? two32 - 1) with true. change (two64 - 1 =? two64 - 1) with true. exact I1.
  - destruct B as [-> B]. exists (EFde o (p + osize d64) limit). split; [|cbn [describes]; sp; try lia; exact A].
    destruct (c_eh c); cbn [negb andb].
    + rewrite andb_false_r. cbn [andb]. destruct I0 as [I1 ->].
      replace (p - o =? 0) with false by (destruct d64; lia).
      replace ((p <? p - o) || (p <=? osize d64)) with false by (destruct d64; cbn [osize]; lia).
      replace (p - (p - o)) with o by lia. replace (o =? two64 - 1) with false by (destruct d64; lia). reflexivity.
    + destruct I0 as [I1 ->]. destruct d64; cbn [osize Z.eqb Pos.eqb andb] in *.
      * change (256 ^ 8 - 1) with (two64 - 1) in I1. replace (o =? two64 - 1) with false by lia. reflexivity.
      * change (256 ^ 4 - 1) with (two32 - 1) in I1. replace (o =? two32 - 1) with false by lia. replace (o =? two64 - 1) with false by lia. reflexivity.
Qed.

Lemma next_cfi_at : forall c off x b, entry_bytes c off x b -> at_ (c_mem c) off b -> off + zlen b <= c_dsize c -> c_dsize c < two63 ->
  exists r, next_cfi c off = Ok (NEntry (off + zlen b) r) /\ describes c (off + zlen b) x r.
Proof.
  intros c off x b (d64 & v & body & B & L & ID & V & ->) A E DS. pose proof (at_bound _ _ _ A) as [O0 _]. pose proof (zlen_nonneg _ body).
  assert (0 < zlen body) as BP.
  { destruct x as [a|o contents]; cbn [body_of] in B; [|apply B]. destruct B as [eh tail ptr caf daf ra data ? EA EH FT U1 S1 R1 AD]. cbn [app]. rewrite zlen_cons.
    match goal with |- 0 < 1 + zlen ?l => pose proof (zlen_nonneg _ l) end. lia. }
  unfold length_ok, length_bytes in *. unfold next_cfi.
  destruct d64; cbn [osize] in *.
  - rewrite !zlen_app, !zlen_enc in E by lia.
    assert (A0 : at_ (c_mem c) off (enc (c_fle c) 4 (two32 - 1))) by (rewrite <- app_assoc in A; exact (at_app1 _ _ _ _ A)).
    assert (A1 : at_ (c_mem c) (off + 4) (enc (c_fle c) 8 (8 + zlen body))).
    { apply at_app1, at_app2 in A. rewrite zlen_enc in A by lia. exact A. }
    apply at_app2 in A. rewrite zlen_app, !zlen_enc in A by lia.
    rewrite u64_small by lia. replace ((off =? two64 - 1) || (c_dsize c <=? off + 4)) with false by lia.
    rewrite s64_small by lia. rewrite (rd_at _ _ off 4 (two32 - 1) ltac:(lia) ltac:(lia) A0). cbn [obind]. rewrite Z.eqb_refl.
    replace (c_dsize c - (off + 4) <? 8) with false by lia.
    rewrite (rd_at _ _ (off + 4) 8 (8 + zlen body) ltac:(lia) ltac:(lia) A1). cbn [obind].
    replace (8 + zlen body =? 0) with false by lia. replace (off + 4 + 8) with (off + 12) by lia.
    rewrite (u64_small (c_dsize c - (off + 12))) by lia.
    replace ((c_dsize c - (off + 12) <? 8 + zlen body) || (8 + zlen body <? 9)) with false by lia.
    replace (off + zlen ((enc (c_fle c) 4 (two32 - 1) ++ enc (c_fle c) 8 (8 + zlen body)) ++ enc (c_fle c) 8 v ++ body))
      with (off + 12 + (8 + zlen body)) by (rewrite !zlen_app, !zlen_enc by lia; lia).
    rewrite u64_small by lia.
    apply (id_entry_at c x true v body _ _ off (off + 12) B); auto; cbn [osize]; try lia. 
  - rewrite !zlen_app, !zlen_enc in E by lia.
    assert (A0 : at_ (c_mem c) off (enc (c_fle c) 4 (4 + zlen body))) by exact (at_app1 _ _ _ _ A).
    apply at_app2 in A. rewrite !zlen_enc in A by lia.
    rewrite u64_small by lia. replace ((off =? two64 - 1) || (c_dsize c <=? off + 4)) with false by lia.
    rewrite s64_small by lia. rewrite (rd_at _ _ off 4 (4 + zlen body) ltac:(lia) ltac:(lia) A0). cbn [obind].
    replace (4 + zlen body =? two32 - 1) with false by lia.
    replace (4 + zlen body =? 0) with false by lia.
    rewrite (u64_small (c_dsize c - (off + 4))) by lia.
    replace ((c_dsize c - (off + 4) <? 4 + zlen body) || (4 + zlen body <? 5)) with false by lia.
    replace (off + zlen (enc (c_fle c) 4 (4 + zlen body) ++ enc (c_fle c) 4 v ++ body))
      with (off + 4 + (4 + zlen body)) by (rewrite !zlen_app, !zlen_enc by lia; lia).
    rewrite u64_small by lia.
    apply (id_entry_at c x false v body _ _ off (off + 4) B); auto; cbn [osize]; try lia.
Qed.
