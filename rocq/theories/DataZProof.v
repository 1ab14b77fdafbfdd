(* Proofs about DataModel: chunks, data lists, compression. *)
From Verif Require Import Base ElfErr XlateModel XlateSpec XlateProof XlateApiProof XlateNoteProof XlateVerProof DataModel DataSpec DataProof.

Lemma pread_in : forall f off size, file_ok f -> 0 <= off -> 0 <= size -> off + size <= f_max f ->
  pread f off size = zsub (f_img f) (f_start f + off) size /\ zlen (pread f off size) = size.
Proof.
  intros f off size (A1 & A2 & A3 & _) H1 H2 H3. unfold pread. rewrite Z.min_l by lia.
  split; [reflexivity|]. apply zsub_length; lia.
Qed.
Lemma map_bytes_in : forall f off size, file_ok f -> 0 <= off -> 0 <= size -> off + size <= f_max f ->
  map_bytes f off size = Ok (zsub (f_img f) (f_start f + off) size).
Proof.
  intros f off size (A1 & A2 & A3 & _) H1 H2 H3. unfold map_bytes.
  replace ((0 <=? f_start f + off) && (f_start f + off + size <=? zlen (f_img f)))%bool with true by lia. reflexivity.
Qed.

Lemma inplace_records : forall c64 le ty ws raw junk, spec_widths c64 ty = Some ws ->
  zlen raw mod Z.of_nat (total ws) = 0 ->
  (m' <- xfct c64 ty le false (fresh raw junk) 0 0 (zlen raw) ;; Ok (rdm m' 0 (Z.to_nat (zlen raw))))
  = Ok (swap_records ws (Z.to_nat (zlen raw / Z.of_nat (total ws))) raw).
Proof.
  intros c64 le ty ws raw junk W M. pose proof (zlen_nonneg _ raw).
  destruct (xfct_records c64 ty ws le false (fresh raw junk) 0 0 (zlen raw) W) as (m' & X & R & _);
    [lia|exact M|right; left; lia|].
  rewrite X. cbn [obind]. rewrite R. unfold zlen at 2. rewrite Nat2Z.id, fresh_rdm. reflexivity.
Qed.

Lemma rawchunk_ok : forall al alr junk f off size ty b, file_ok f -> 0 <= size ->
  (off < 0 \/ f_max f < off + size -> rawchunk al alr junk f off size ty = Err ELF_E_INVALID_OP) /\
  (0 <= off -> off + size <= f_max f -> 27 <= ty -> rawchunk al alr junk f off size ty = Err ELF_E_UNKNOWN_TYPE) /\
  (0 <= off -> off + size <= f_max f -> ty < 27 -> chunk_bytes f off size ty = Some b ->
     rawchunk al alr junk f off size ty = Ok b \/ (al = false /\ rawchunk al alr junk f off size ty = Err ELF_E_NOMEM)
     \/ (f_map f = false /\ f_fd f = false)).
Proof.
  intros al alr junk f off size ty b F Hs. pose proof F as (A1 & A2 & A3 & A4 & A5 & A6).
  unfold rawchunk. split; [|split].
  - intros H. replace ((off <? 0) || (f_max f <? off) || (f_max f - off <? size))%bool with true by lia. reflexivity.
  - intros H1 H2 H3. replace ((off <? 0) || (f_max f <? off) || (f_max f - off <? size))%bool with false by lia.
    change ELF_T_NUM with 27. replace (27 <=? ty) with true by lia. reflexivity.
  - intros H1 H2 H3 CB. replace ((off <? 0) || (f_max f <? off) || (f_max f - off <? size))%bool with false by lia.
    change ELF_T_NUM with 27. replace (27 <=? ty) with false by lia.
    unfold chunk_bytes in CB. rewrite (map_bytes_in f off size F H1 Hs H2).
    destruct (pread_in f off size F H1 Hs H2) as [P1 P2]. rewrite P2, P1. rewrite P1 in P2. rewrite Z.eqb_refl, andb_true_r. cbn [obind].
    set (raw := zsub (f_img f) (f_start f + off) size) in *.
    assert (C1 : f_native f = false -> forall j, conv (f_c64 f) (f_le f) ty raw j = Ok b).
    { intros N j. rewrite N in CB. destruct (spec_widths _ _) as [ws|] eqn:W; [|discriminate].
      destruct (_ =? 0) eqn:M; [|discriminate]. injection CB as <-. rewrite <- P2.
      apply conv_records; [exact W|]. rewrite P2. lia. }
    assert (C2 : f_native f = false -> forall j,
      (m' <- xfct (f_c64 f) ty (f_le f) false (fresh raw j) 0 0 size ;; Ok (rdm m' 0 (Z.to_nat size))) = Ok b).
    { intros N j. rewrite N in CB. destruct (spec_widths _ _) as [ws|] eqn:W; [|discriminate].
      destruct (_ =? 0) eqn:M; [|discriminate]. injection CB as <-. rewrite <- P2.
      apply inplace_records; [exact W|]. rewrite P2. lia. }
    destruct (f_native f) eqn:N.
    + injection CB as <-. destruct (f_map f), (f_fd f), al, alr; cbn; auto.
    + destruct (f_map f) eqn:MP.
      * destruct al; cbn [negb]; [|auto]. destruct alr; [rewrite C1 by reflexivity|rewrite C2 by reflexivity]; auto.
      * destruct al; cbn [negb]; [|auto]. destruct (f_fd f); cbn [negb]; [|auto]. rewrite C2 by reflexivity. auto.
Qed.

(* ------------------------------------------------------------------ *)
(* Data lists. *)
Lemma walk_ok : forall l o, Forall block_ok l -> 0 <= o -> 
  (exists d b, In d l /\ covers d o /\ ed_buf d = Some b /\ zlen b = ed_size d /\
     ((terminated b (o - ed_off d) /\ strptr_walk l o = Ok (Some (b, o - ed_off d), None)) \/
      (~ terminated b (o - ed_off d) /\ strptr_walk l o = Ok (None, Some ELF_E_INVALID_INDEX)))) \/
  ((forall d, In d l -> ~ covers d o) /\ strptr_walk l o = Ok (None, None)).
Proof.
  induction l as [|d l IH]; intros o B Ho.
  - right. split; [intros d []|reflexivity].
  - pose proof (Forall_inv B) as (B1 & B2 & B3 & B4). cbn [strptr_walk].
    assert (U1 : u64 (ed_off d) = ed_off d) by (unfold u64; apply Z.mod_small; lia).
    assert (U2 : u64 (ed_off d + ed_size d) = ed_off d + ed_size d) by (unfold u64; apply Z.mod_small; lia).
    rewrite U1, U2. destruct ((ed_off d <=? o) && (o <? ed_off d + ed_size d)) eqn:C.
    + destruct (B4 ltac:(lia)) as (b & E & L). rewrite E.
      assert (U3 : u64 (o - ed_off d) = o - ed_off d) by (unfold u64; apply Z.mod_small; lia). rewrite U3.
      left. exists d, b. split; [left; reflexivity|]. split; [unfold covers; lia|]. split; [exact E|]. split; [exact L|].
      destruct (validate_ok b (o - ed_off d) (ed_size d) ltac:(lia) L) as [[V T]|[V T]]; rewrite V; cbn [obind]; auto.
    + destruct (IH o (Forall_inv_tail B) Ho) as [(d' & b & I & R)|[N R]].
      * left. exists d', b. split; [right; exact I|exact R].
      * right. split; [|exact R]. intros d' [<-|I]; [unfold covers; lia|exact (N d' I)].
Qed.

Lemma strptr_blocks : forall al aligned junk z f s o,
  sh_type (s_hdr s) = 3 -> compressed (s_hdr s) = false -> s_read s = true -> s_rear s <> None -> s_zbase s = None ->
  Forall block_ok (blocks s) -> 0 <= o ->
  exists r e, strptr al aligned junk z f s o = Ok (s, (r, e)) /\
    (forall b p, r = Some (b, p) -> o < sh_size (s_hdr s) /\
       exists d, In d (blocks s) /\ covers d o /\ ed_buf d = Some b /\ p = o - ed_off d /\ terminated b p) /\
    (r = None -> sh_size (s_hdr s) <= o \/ (forall d, In d (blocks s) -> ~ covers d o) \/
       exists d b, In d (blocks s) /\ covers d o /\ ed_buf d = Some b /\ ~ terminated b (o - ed_off d)) /\
    (r = None -> e = None -> o < sh_size (s_hdr s) /\ forall d, In d (blocks s) -> ~ covers d o).
Proof.
  intros al aligned junk z f s o T C R RR ZB B Ho. unfold strptr. rewrite T. cbn [negb Z.eqb].
  change (3 =? SHT_STRTAB) with true. cbn [negb]. unfold str_size. rewrite has_compressed, C. cbn [negb obind].
  destruct (sh_size (s_hdr s) <=? o) eqn:LE.
  { exists None, (Some ELF_E_OFFSET_RANGE). split; [reflexivity|]. split; [discriminate|]. split; [intros _; left; lia|discriminate]. }
  unfold str_load. rewrite R, andb_false_r. cbn [obind]. rewrite ZB.
  destruct (s_rear s) eqn:RS; [|congruence]. cbn [isSome negb].
  change (s_first s :: s_rest s) with (blocks s).
  destruct (walk_ok (blocks s) o B Ho) as [(d & b & I & CV & E & L & [[TT W]|[TT W]])|[N W]]; rewrite W; cbn [obind].
  - eexists _, _. split; [reflexivity|]. split; [|split; discriminate].
    intros b' p [= <- <-]. split; [lia|]. exists d. auto.
  - eexists None, _. split; [reflexivity|]. split; [discriminate|]. split; [|discriminate].
    intros _. right. right. exists d, b. auto.
  - eexists None, None. split; [reflexivity|]. split; [discriminate|]. split; [auto|]. intros _ _. split; [lia|exact N].
Qed.

(* ------------------------------------------------------------------ *)
(* Compression. *)
Lemma file_bytes_ok : forall f h d hb junk, file_ok f -> hdr_ok h -> deliverable f h -> has_data h = true ->
  compressed h = false -> sh_size h < two32 -> host_bytes f h = Some hb -> data_ok f h d ->
  file_bytes f d junk = Ok (section_bytes f h).
Proof.
  intros f h d hb junk F H D HD C SZ HB (B1 & B2 & B3 & B4 & _). rewrite HD, HB in B1.
  pose proof (has_data_in_file f h D HD) as IN.
  pose proof (host_bytes_len f h hb F H IN HB) as HL. pose proof (section_bytes_len f h F H IN) as L.
  assert (S0 : 0 <= sh_size h) by (destruct H as (_ & _ & _ & U & _); unfold is_u64 in U; lia).
  unfold file_bytes. rewrite B1, B3, HL, Z.ltb_irrefl.
  assert (U : u32 (sh_size h) = sh_size h) by (unfold u32; apply Z.mod_small; lia). rewrite U.
  unfold host_bytes in HB. destruct (f_native f) eqn:N.
  - injection HB as <-. rewrite firstn_all2; [reflexivity|]. unfold zlen in *. lia.
  - rewrite C in HB. destruct (spec_widths (f_c64 f) (fst (content f h))) as [ws|] eqn:W; [|discriminate].
    destruct (sh_size h mod Z.of_nat (total ws) =? 0) eqn:M; [|discriminate]. injection HB as HB.
    rewrite B2.
    destruct (xlate_records true (f_c64 f) (f_le f) (fst (content f h)) ws (fresh hb junk) (sh_size h) 0
      (sh_size h) (sh_size h) (fst (content f h)) (if f_le f then ELFDATA2MSB else ELFDATA2LSB) W) as (m' & X & R & _).
    { lia. } { lia. } { destruct (f_le f); [right|left]; reflexivity. } { right. right. right. lia. }
    rewrite X. cbn [obind].
    assert (NN : native (f_le f) (if f_le f then ELFDATA2MSB else ELFDATA2LSB) = false) by (destruct (f_le f); reflexivity).
    rewrite NN in R. rewrite R.
    assert (LH : Z.to_nat (sh_size h) = length hb) by (unfold zlen in HL; lia).
    rewrite LH at 2. rewrite fresh_rdm, <- HB.
    rewrite swap_records_invol.
    + rewrite firstn_all2; [reflexivity|]. unfold zlen in L. lia.
    + unfold zlen in L. destruct (fsize_spec _ _ _ W) as [_ TP].
      pose proof (Z.div_mod (sh_size h) (Z.of_nat (total ws)) ltac:(lia)).
      pose proof (Z.div_pos (sh_size h) (Z.of_nat (total ws)) ltac:(lia) ltac:(lia)). nia.
Qed.

Lemma compress_ok : forall aligned junk z f h s hb hsize force, file_ok f -> hdr_ok h -> deliverable f h ->
  has_data h = true -> compressed h = false -> sh_size h < two32 -> host_bytes f h = Some hb ->
  rinv true f h s ->
  exists s1, rinv true f h s1 /\ s_read s1 = true /\
    (compress true aligned junk z f s hsize force
     = Ok (s1, inr (Some (z_defl z (section_bytes f h), sh_size h, data_align h))) \/
     (force = false /\ compress true aligned junk z f s hsize force = Ok (s1, inr None))) /\
    (force = false -> hsize + zlen (z_defl z (section_bytes f h)) < sh_size h \/
       compress true aligned junk z f s hsize force = Ok (s1, inr None)).
Proof.
  intros aligned junk z f h s hb hsize force F H D HD C SZ HB I.
  assert (CV : convertible f h) by (intros _ _; congruence).
  destruct (getdata_inv true true aligned junk f h s F H CV (fun _ => eq_refl) I)
    as (s1 & r & E & I1 & [(_ & -> & R & RR)|(ND & _)] & _ & _); [|destruct (ND eq_refl D)].
  exists s1. split; [exact I1|]. split; [exact R|]. unfold compress. rewrite E. cbn [obind]. rewrite (ri_rest _ _ _ _ I1).
  destruct (ri_rear _ _ _ _ I1) as [X|[_ [DO|[X _]]]]; [congruence| |discriminate].
  pose proof (file_bytes_ok f h (s_first s1) hb junk F H D HD C SZ HB DO) as FB.
  destruct DO as (B1 & B2 & B3 & B4 & B5).
  cbn [andb fold_left negb all_bytes]. rewrite FB. cbn [obind]. rewrite app_nil_r, B3, B5.
  destruct force; cbn [negb andb].
  - split; [left; reflexivity|discriminate].
  - destruct (sh_size h <=? hsize + 5 + 6); [auto|].
    destruct (sh_size h <=? hsize + zlen (z_defl z (section_bytes f h))) eqn:LE; [auto|].
    split; [left; reflexivity|]. intros _. left. lia.
Qed.

Lemma reset_ok : forall aligned junk f s buf size align ty b, zlen buf = size -> 0 < size ->
  convert_data true aligned junk f ty buf = Ok (Some b) ->
  reset_rawdata true aligned junk f s buf size align ty
  = Ok (Sec (s_index s) (s_hdr s) (Some buf) (EDat (Some buf) ty size 0 align 1) true true
         (EDat (Some b) ty size 0 align 1) (s_rest s) (Some O) (s_zbase s) (s_zsize s) (s_zalign s)).
Proof.
  intros aligned junk f s buf size align ty b L P C. unfold reset_rawdata, set_data_list.
  cbn [s_raw ed_buf ed_size ed_type ed_off ed_align ed_version s_index s_hdr s_rawbase s_read s_file s_rest s_zbase s_zsize s_zalign].
  replace (0 <? size) with true by lia. rewrite L, Z.eqb_refl. cbn [negb]. rewrite C. reflexivity.
Qed.

Lemma rev_hbytes : forall le n x, rev (hbytes (negb le) n x) = hbytes le n x.
Proof. intros [] n x; unfold hbytes, be_bytes; cbn [negb]; [apply rev_involutive|reflexivity]. Qed.
Lemma hbytes_len : forall le n x, length (hbytes le n x) = n.
Proof. intros [] n x; unfold hbytes; [apply le_bytes_length|apply be_bytes_length]. Qed.
Lemma hval_hbytes : forall le n x, hval le (hbytes le n x) = x mod 256 ^ Z.of_nat n.
Proof. intros [] n x; unfold hval, hbytes; [apply le_value_bytes|apply be_value_bytes]. Qed.

(* The header as the host reads it. *)
Definition hdr_host (f : efile) (sz align : Z) : bytes :=
  if f_c64 f then hbytes (f_le f) 4 1 ++ hbytes (f_le f) 4 0 ++ hbytes (f_le f) 8 sz ++ hbytes (f_le f) 8 align
  else hbytes (f_le f) 4 1 ++ hbytes (f_le f) 4 sz ++ hbytes (f_le f) 4 align.
Lemma hdr_host_len : forall f sz a, zlen (hdr_host f sz a) = chdr_size (f_c64 f).
Proof.
  intros f sz a. unfold hdr_host, chdr_size, zlen. destruct (f_c64 f); rewrite !app_length, !hbytes_len; reflexivity.
Qed.
Lemma chdr_bytes_len : forall f sz a, zlen (chdr_bytes f sz a) = chdr_size (f_c64 f).
Proof.
  intros f sz a. unfold chdr_bytes, chdr_size, zlen. destruct (f_c64 f); rewrite !app_length, !hbytes_len; reflexivity.
Qed.

Lemma swap_app : forall w ws (a b : bytes), length a = w ->
  swap_widths (w :: ws) (a ++ b) = rev a ++ swap_widths ws b.
Proof. intros w ws a b L. cbn [swap_widths]. rewrite firstn_exact, skipn_exact by exact L. reflexivity. Qed.

Lemma convert_chdr : forall aligned junk f sz a c,
  convert_data true aligned junk f ELF_T_CHDR (chdr_bytes f sz a ++ c) = Ok (Some (hdr_host f sz a ++ c)).
Proof.
  intros aligned junk f sz a c. unfold convert_data. change (ELF_T_CHDR =? ELF_T_BYTE) with false. rewrite orb_false_r.
  pose proof (chdr_bytes_len f sz a) as L. 
  destruct (f_native f) eqn:N.
  - rewrite orb_true_r. unfold chdr_bytes, hdr_host. rewrite N. reflexivity.
  - cbn [negb]. rewrite conv_chdr. cbn [obind]. do 2 f_equal. unfold swap_chdr.
    assert (T : total (chdr_widths (f_c64 f)) = length (chdr_bytes f sz a)).
    { unfold zlen, chdr_size in L. destruct (f_c64 f); cbn [chdr_widths total fold_right Nat.add]; lia. }
    rewrite T. replace (_ <=? _)%nat with true by (rewrite app_length; symmetry; apply Nat.leb_le; lia).
    rewrite firstn_exact, skipn_exact by reflexivity. f_equal.
    unfold chdr_bytes, hdr_host. rewrite N. unfold chdr_widths. destruct (f_c64 f).
    + rewrite !swap_app by apply hbytes_len. rewrite <- (app_nil_r (hbytes (negb (f_le f)) 8 a)), swap_app by apply hbytes_len.
      cbn [swap_widths]. rewrite !rev_hbytes, app_nil_r. reflexivity.
    + rewrite !swap_app by apply hbytes_len. rewrite <- (app_nil_r (hbytes (negb (f_le f)) 4 a)), swap_app by apply hbytes_len.
      cbn [swap_widths]. rewrite !rev_hbytes, app_nil_r. reflexivity.
Qed.

Lemma zsub_app_skip : forall (a b : bytes) o n, zlen a <= o -> zsub (a ++ b) o n = zsub b (o - zlen a) n.
Proof.
  intros a b o n H. unfold zsub, zlen in *. f_equal.
  rewrite skipn_app, skipn_all2 by lia. cbn [app]. f_equal. lia.
Qed.
Lemma zsub_app_exact : forall (a b : bytes), zsub (a ++ b) 0 (zlen a) = a.
Proof. intros a b. unfold zsub, zlen. cbn [Z.to_nat skipn]. rewrite Nat2Z.id. apply firstn_exact. reflexivity. Qed.

Ltac rd n S := match goal with |- context [zsub ?x 0 ?k] => change (zsub x 0 k) with (zsub x 0 (Z.of_nat n)) end;
  rewrite S, hval_hbytes.
Lemma hdr_host_read : forall f sz a c, 
  let b := hdr_host f sz a ++ c in
  hval (f_le f) (zsub b 0 4) = 1 /\
  (f_c64 f = true -> hval (f_le f) (zsub b 8 8) = u64 sz /\ hval (f_le f) (zsub b 16 8) = u64 a) /\
  (f_c64 f = false -> hval (f_le f) (zsub b 4 4) = u32 sz /\ hval (f_le f) (zsub b 8 4) = u32 a).
Proof.
  intros f sz a c b. set (le := f_le f) in *.
  assert (S : forall n x r, zsub (hbytes le n x ++ r) 0 (Z.of_nat n) = hbytes le n x).
  { intros n x r. replace (Z.of_nat n) with (zlen (hbytes le n x)) by (unfold zlen; rewrite hbytes_len; reflexivity).
    apply zsub_app_exact. }
  assert (K : forall n x r o m, Z.of_nat n <= o -> zsub (hbytes le n x ++ r) o m = zsub r (o - Z.of_nat n) m).
  { intros n x r o m Ho. replace (Z.of_nat n) with (zlen (hbytes le n x)) by (unfold zlen; rewrite hbytes_len; reflexivity).
    apply zsub_app_skip. unfold zlen. rewrite hbytes_len. exact Ho. }
  unfold b, hdr_host. fold le.
  destruct (f_c64 f); (split; [|split; [intros X; try discriminate X|intros X; try discriminate X]]);
    rewrite <- ?app_assoc.
  - rd 4%nat S. reflexivity.
  - split.
    + rewrite !K by (cbn; lia). change (8 - Z.of_nat 4 - Z.of_nat 4) with 0. rd 8%nat S. reflexivity.
    + rewrite !K by (cbn; lia). change (16 - Z.of_nat 4 - Z.of_nat 4 - Z.of_nat 8) with 0. rd 8%nat S. reflexivity.
  - rd 4%nat S. reflexivity.
  - split.
    + rewrite !K by (cbn; lia). change (4 - Z.of_nat 4) with 0. rd 4%nat S. reflexivity.
    + rewrite !K by (cbn; lia). change (8 - Z.of_nat 4 - Z.of_nat 4) with 0. rd 4%nat S. reflexivity.
Qed.

Lemma decompress_defl : forall junk z raw, z_lossless z -> bytes_ok raw -> zlen raw < two32 ->
  zlen (z_defl z raw) < two32 -> decompress true junk z (z_defl z raw) (zlen raw) = Ok raw.
Proof.
  intros junk z raw ZL B L1 L2. destruct (ZL raw B) as (N & R & _ & X). unfold decompress.
  pose proof (zlen_nonneg _ raw). pose proof (zlen_nonneg _ (z_defl z raw)).
  replace (zlen (z_defl z raw) <? zlen raw / 1032) with false by lia. cbn [negb].
  assert (U1 : u32 (zlen (z_defl z raw)) = zlen (z_defl z raw)) by (unfold u32; apply Z.mod_small; lia).
  assert (U2 : u32 (zlen raw) = zlen raw) by (unfold u32; apply Z.mod_small; lia).
  rewrite U1, U2.
  assert (FA : firstn (Z.to_nat (zlen (z_defl z raw))) (z_defl z raw) = z_defl z raw)
    by (unfold zlen; rewrite Nat2Z.id; apply firstn_all).
  rewrite FA.
  destruct (z_defl z raw) as [|c cs] eqn:E; [congruence|]. cbn [length inflate_loop].
  rewrite X by lia. destruct (length cs); cbn [inflate_loop obind]; rewrite Z.sub_diag; cbn [Z.eqb obind];
    rewrite ?Z.sub_diag; cbn [Z.to_nat]; change (rdm junk 0 0) with (@nil Z); cbn [app]; rewrite app_nil_r; reflexivity.
Qed.

Lemma powerof2_ok : forall a, pow2 a -> powerof2 a = true.
Proof.
  intros a [->|(k & K & ->)]; unfold powerof2; [rewrite Z.land_0_r; reflexivity|].
  assert (0 < 2 ^ k) by (apply Z.pow_pos_nonneg; lia).
  assert (2 ^ k < two64) by (change two64 with (2 ^ 64); apply Z.pow_lt_mono_r; lia).
  unfold u64. rewrite Z.mod_small by lia.
  pose proof (land_pow2 (2 ^ k - 1) k ltac:(lia)) as P.
  assert (T : Z.testbit (2 ^ k - 1) k = false).
  { replace (2 ^ k - 1) with (Z.ones k) by (rewrite Z.ones_equiv; lia). apply Z.ones_spec_high. lia. }
  rewrite T in P. apply negb_false_iff in P. exact P.
Qed.
Lemma has_alloc : forall h, has (sh_flags h) SHF_ALLOC = Z.testbit (sh_flags h) 1.
Proof. intros. unfold has. change SHF_ALLOC with (2 ^ 1). apply land_pow2. lia. Qed.

Lemma flag_set : forall x, Z.testbit x 11 = false ->
  Z.testbit (Z.lor x SHF_COMPRESSED) 11 = true /\ Z.testbit (Z.lor x SHF_COMPRESSED) 1 = Z.testbit x 1 /\
  Z.land (Z.lor x SHF_COMPRESSED) (Z.lnot SHF_COMPRESSED) = x.
Proof.
  intros x H. split; [|split].
  - rewrite Z.lor_spec. change (Z.testbit SHF_COMPRESSED 11) with true. apply orb_true_r.
  - rewrite Z.lor_spec. change (Z.testbit SHF_COMPRESSED 1) with false. apply orb_false_r.
  - apply Z.bits_inj'. intros n Hn. rewrite Z.land_spec, Z.lor_spec, Z.lnot_spec by lia.
    change SHF_COMPRESSED with (2 ^ 11). destruct (Z.eq_dec n 11) as [->|N].
    + rewrite H, Z.pow2_bits_true by lia. reflexivity.
    + rewrite Z.pow2_bits_false by lia. rewrite orb_false_r, andb_true_r. reflexivity.
Qed.

Lemma convert_any : forall aligned junk f ty raw b,
  (f_native f = true /\ b = raw) \/ (ty = ELF_T_BYTE /\ b = raw) \/
  (f_native f = false /\ exists ws, spec_widths (f_c64 f) ty = Some ws /\ zlen raw mod Z.of_nat (total ws) = 0 /\
     b = swap_records ws (Z.to_nat (zlen raw / Z.of_nat (total ws))) raw) ->
  convert_data true aligned junk f ty raw = Ok (Some b).
Proof.
  intros aligned junk f ty raw b H. unfold convert_data. destruct H as [[N ->]|[[-> ->]|(N & ws & W & M & ->)]].
  - rewrite N. cbn [orb]. rewrite orb_true_r. reflexivity.
  - change (ELF_T_BYTE =? ELF_T_BYTE) with true. rewrite orb_true_r. rewrite orb_true_r. reflexivity.
  - rewrite N. cbn [orb negb]. destruct (ty =? ELF_T_BYTE) eqn:E.
    + assert (ty = 0) by (apply Z.eqb_eq; exact E). subst ty. injection W as <-.
      cbn [total fold_right Nat.add]. change (Z.of_nat 1) with 1. rewrite Z.div_1_r.
      rewrite swap_records_1 by (unfold zlen; lia). rewrite orb_true_r. reflexivity.
    + rewrite (conv_records _ _ _ ws) by assumption. reflexivity.
Qed.

(* The type of a table of fixed records does not depend on the alignment. *)
Lemma data_type_align : forall f h ws a, compressed h = false -> spec_widths (f_c64 f) (fst (content f h)) = Some ws ->
  data_type f (sh_type h) a = fst (content f h).
Proof.
  intros f h ws a C W. rewrite <- content_type, has_compressed, C in *. unfold data_type in *.
  destruct ((sh_type h =? SHT_HASH) && f_c64 f); [reflexivity|].
  destruct (shtype_map (sh_type h) =? ELF_T_NHDR) eqn:N; [|reflexivity]. exfalso.
  assert (X : shtype_map (sh_type h) = 19) by (apply Z.eqb_eq; exact N). rewrite X in W. cbn [andb] in W.
  destruct (sh_addralign h =? 8); destruct (f_c64 f); discriminate W.
Qed.

Lemma restored_conv : forall aligned junk f h hb a, file_ok f -> hdr_ok h -> in_file f h -> compressed h = false ->
  host_bytes f h = Some hb ->
  convert_data true aligned junk f (data_type f (sh_type h) a) (section_bytes f h) = Ok (Some hb).
Proof.
  intros aligned junk f h hb a F H IN C HB. apply convert_any. pose proof (section_bytes_len f h F H IN) as L.
  unfold host_bytes in HB. destruct (f_native f) eqn:N; [left; split; congruence|]. rewrite C in HB.
  destruct (spec_widths _ _) as [ws|] eqn:W; [|discriminate]. destruct (_ =? 0) eqn:M; [|discriminate].
  right. right. split; [reflexivity|]. exists ws. rewrite (data_type_align f h ws a C W), L.
  split; [exact W|]. split; [lia|congruence].
Qed.

Definition ok_flags (fl : Z) : Prop := fl = 0 \/ fl = 1.
Lemma ok_flags_land : forall fl, ok_flags fl -> (Z.land fl (-2) =? 0) = true.
Proof. intros fl [->| ->]; reflexivity. Qed.

Lemma elf_decompress_ok : forall aligned junk z f idx h raw zs za first_al a rest_ed fl hb,
  z_lossless z -> bytes_ok raw -> 0 < zlen raw < two32 -> zlen (z_defl z raw) < two32 -> ok_flags fl ->
  Z.testbit (sh_flags h) 1 = false -> compressed h = true -> sh_type h <> 0 -> sh_type h <> 8 ->
  pow2 a -> (f_c64 f = false -> is_u32 a) ->
  (forall aligned junk, convert_data true aligned junk f (data_type f (sh_type h) a) raw = Ok (Some hb)) ->
  rest_ed = EDat (Some (hdr_host f (zlen raw) a ++ z_defl z raw)) ELF_T_CHDR
              (chdr_size (f_c64 f) + zlen (z_defl z raw)) 0 first_al 1 ->
  forall rb rw,
  elf_compress true aligned junk z f
    (Sec idx h rb rw true true rest_ed [] (Some O) None zs za) 0 fl
  = Ok (Sec idx (Shdr (sh_type h) (Z.land (sh_flags h) (Z.lnot SHF_COMPRESSED)) (sh_offset h) (zlen raw) a)
          (Some raw) (EDat (Some raw) (data_type f (sh_type h) a) (zlen raw) 0 a 1) true true
          (EDat (Some hb) (data_type f (sh_type h) a) (zlen raw) 0 a 1) [] (Some O)
          (Some raw) (zlen raw) a, inr 1).
Proof.
  intros aligned junk z f idx h raw zs za first_al a rest_ed fl hb ZL B L1 L2 FL AL C T0 T8 PA UA CV RE rb rw.
  subst rest_ed. unfold elf_compress. rewrite (ok_flags_land fl FL). cbn [negb].
  cbn [s_hdr]. rewrite has_alloc, AL.
  change SHT_NULL with 0. change SHT_NOBITS with 8.
  replace ((sh_type h =? 0) || (sh_type h =? 8)) with false by lia.
  change (0 =? 1) with false. cbn match. change (0 =? 0) with true. cbn match.
  assert (HC : has (sh_flags h) SHF_COMPRESSED = true) by (rewrite has_compressed; exact C).
  assert (CL : (Z.land (sh_flags h) SHF_COMPRESSED =? 0) = false) by (unfold has in HC; apply negb_true_iff in HC; exact HC).
  rewrite CL. cbn [s_zbase].
  pose proof (zlen_nonneg _ (z_defl z raw)) as ZN.
  pose proof (hdr_host_len f (zlen raw) a) as HL.
  destruct (hdr_host_read f (zlen raw) a (z_defl z raw)) as (R1 & R2 & R3).
  assert (A64 : is_u64 a).
  { destruct PA as [->|(k & K & ->)]; unfold is_u64; [lia|]. split; [apply Z.pow_nonneg; lia|].
    change two64 with (2 ^ 64). apply Z.pow_lt_mono_r; lia. }
  assert (GC : getchdr true aligned junk f
      (Sec idx h rb rw true true (EDat (Some (hdr_host f (zlen raw) a ++ z_defl z raw)) ELF_T_CHDR
         (chdr_size (f_c64 f) + zlen (z_defl z raw)) 0 first_al 1) [] (Some O) None zs za)
    = Ok (Sec idx h rb rw true true (EDat (Some (hdr_host f (zlen raw) a ++ z_defl z raw)) ELF_T_CHDR
         (chdr_size (f_c64 f) + zlen (z_defl z raw)) 0 first_al 1) [] (Some O) None zs za, inr (1, zlen raw, a))).
  { unfold getchdr. cbn [s_hdr]. rewrite has_alloc, AL.
    change SHT_NULL with 0. change SHT_NOBITS with 8.
    replace ((sh_type h =? 0) || (sh_type h =? 8)) with false by lia. rewrite HC. cbn [negb].
    unfold getdata. cbn [s_read s_rear isSome obind]. unfold data_at. cbn [s_first nth_error ed_buf ed_size].
    replace (_ <? _) with false by (destruct (f_c64 f); cbn [chdr_size]; lia).
    rewrite zlen_app, HL. replace (_ <? _) with false by (destruct (f_c64 f); cbn [chdr_size]; lia).
    cbn zeta in R1, R2, R3. destruct (f_c64 f) eqn:C64.
    - destruct (R2 eq_refl) as [-> ->]. rewrite R1. unfold u64. rewrite !Z.mod_small by (unfold is_u64 in A64; lia). reflexivity.
    - destruct (R3 eq_refl) as [-> ->]. rewrite R1. pose proof (UA eq_refl) as UA'. unfold is_u32 in UA'.
      unfold u32. rewrite !Z.mod_small by lia. reflexivity. }
  unfold decompress_elf. rewrite GC. cbn [obind]. change (1 =? 1) with true. cbn [negb]. rewrite (powerof2_ok a PA). cbn [negb].
  unfold getdata. cbn [s_read s_rear isSome obind]. unfold data_at. cbn [s_first nth_error ed_buf ed_size].
  rewrite zlen_app, HL, Z.ltb_irrefl.
  replace (zsub (hdr_host f (zlen raw) a ++ z_defl z raw) (chdr_size (f_c64 f))
             (chdr_size (f_c64 f) + zlen (z_defl z raw) - chdr_size (f_c64 f))) with (z_defl z raw).
  2:{ rewrite zsub_app_skip by lia. rewrite HL, Z.sub_diag.
      replace (chdr_size (f_c64 f) + zlen (z_defl z raw) - chdr_size (f_c64 f)) with (zlen (z_defl z raw)) by lia.
      unfold zsub, zlen. cbn [Z.to_nat skipn]. rewrite Nat2Z.id, firstn_all. reflexivity. }
  rewrite (decompress_defl junk z raw ZL B ltac:(lia) L2). cbn [obind].
  cbn [set_z s_index s_hdr s_rawbase s_raw s_read s_file s_first s_rest s_rear s_zbase s_zsize s_zalign].
  rewrite (reset_ok aligned junk f _ raw (zlen raw) a _ hb eq_refl ltac:(lia) (CV aligned junk)). cbn [obind].
  cbn [set_hdr s_index s_hdr s_rawbase s_raw s_read s_file s_first s_rest s_rear s_zbase s_zsize s_zalign].
  destruct (f_c64 f) eqn:C64; [reflexivity|]. pose proof (UA eq_refl) as UA'. unfold is_u32 in UA'.
  unfold u32. rewrite !Z.mod_small by lia. reflexivity.
Qed.

Lemma cp_has_data : forall f h hb, compressible f h hb -> has_data h = true.
Proof. intros f h hb [_ _ T S _ _]. unfold has_data. lia. Qed.

Definition zhdr (h : shdr) (n : Z) : shdr :=
  Shdr (sh_type h) (Z.lor (sh_flags h) SHF_COMPRESSED) (sh_offset h) n 1.

Lemma data_align_pos : forall f h hb, hdr_ok h -> compressible f h hb -> fits_class f h ->
  f_c64 f = false -> is_u32 (data_align h).
Proof.
  intros f h hb H CP FC C. pose proof (FC C) as A. unfold is_u32 in *. unfold data_align.
  destruct H as (_ & _ & O & _). unfold is_u64 in O.
  destruct (sh_addralign h =? 0); destruct (negb (sh_type h =? 8)); cbn [andb];
    try match goal with |- context [sh_offset h <? ?x] => destruct (sh_offset h <? x) eqn:E end; lia.
Qed.

Lemma elf_compress_roundtrip : forall z f h hb s, file_ok f -> hdr_ok h -> compressible f h hb -> fits_class f h ->
  z_lossless z -> pow2 (kept_align f h) -> chdr_size (f_c64 f) + zlen (z_defl z (section_bytes f h)) < two32 ->
  rinv true f h s ->
  forall aligned junk fl, ok_flags fl ->
  (exists s1, elf_compress true aligned junk z f s 1 fl = Ok (s1, inr 0) /\ fl = 0 /\ rinv true f h s1) \/
  (exists s1, elf_compress true aligned junk z f s 1 fl = Ok (s1, inr 1) /\
    let out := chdr_bytes f (sh_size h) (kept_align f h) ++ z_defl z (section_bytes f h) in
    s_hdr s1 = zhdr h (zlen out) /\ ed_buf (s_raw s1) = Some out /\ ed_size (s_raw s1) = zlen out /\
    (fl = 0 -> zlen out < sh_size h) /\ s_rest s1 = [] /\
    forall aligned' junk' fl', ok_flags fl' ->
    exists s2, elf_compress true aligned' junk' z f s1 0 fl' = Ok (s2, inr 1) /\
      s_hdr s2 = Shdr (sh_type h) (sh_flags h) (sh_offset h) (sh_size h) (kept_align f h) /\
      ed_buf (s_raw s2) = Some (section_bytes f h) /\ ed_size (s_raw s2) = sh_size h /\
      ed_buf (s_first s2) = Some hb /\ ed_size (s_first s2) = sh_size h /\
      s_read s2 = true /\ s_rear s2 = Some O /\ s_rest s2 = []).
Proof.
  intros z f h hb s F H CP FC ZL PA ZS I aligned junk fl FL.
  pose proof (cp_has_data f h hb CP) as HD. pose proof CP as [AL PL [T0 T8] SZ D HB].
  pose proof (has_data_in_file f h D HD) as IN. pose proof (section_bytes_len f h F H IN) as L.
  pose proof (zlen_nonneg _ (z_defl z (section_bytes f h))) as ZN.
  destruct (compress_ok aligned junk z f h s hb (chdr_size (f_c64 f)) (has fl 1) F H D HD PL ltac:(lia) HB I)
    as (s1 & I1 & R1 & CR & SM).
  assert (FF : has fl 1 = false -> fl = 0) by (destruct FL as [->| ->]; [auto|discriminate]).
  assert (F0 : fl = 0 -> has fl 1 = false) by (intros ->; reflexivity).
  assert (E1 : forall k, elf_compress true aligned junk z f s 1 fl = k <->
     (' (s, r) <- compress true aligned junk z f s (chdr_size (f_c64 f)) (has fl 1) ;;
      match r with
      | inl e => Ok (s, inl e)
      | inr None => Ok (s, inr 0)
      | inr (Some (c, osize, oalign)) =>
        let out := chdr_bytes f osize (if f_c64 f then sh_addralign h else oalign) ++ c in
        s <- reset_rawdata true aligned junk f (set_hdr s (zhdr h (if f_c64 f then zlen out else u32 (zlen out)))) out (zlen out) 1 ELF_T_CHDR ;;
        Ok (set_z s None (s_zsize s) (s_zalign s), inr 1)
      end) = k).
  { intros k. unfold elf_compress. rewrite (ok_flags_land fl FL), (ri_hdr _ _ _ _ I), has_alloc, AL. cbn [negb].
    change SHT_NULL with 0. change SHT_NOBITS with 8.
    replace ((sh_type h =? 0) || (sh_type h =? 8)) with false by lia. change (1 =? 1) with true. cbn match.
    assert (CZ : Z.land (sh_flags h) SHF_COMPRESSED = 0).
    { pose proof (has_compressed h) as X. rewrite PL in X. unfold has in X. apply negb_false_iff in X. lia. }
    rewrite CZ. change (0 =? 1) with false. cbn match. reflexivity. }
  destruct CR as [CR|[FA CR]].
  2:{ left. exists s1. rewrite E1, CR. cbn [obind]. split; [reflexivity|]. split; [exact (FF FA)|exact I1]. }
  right. set (out := chdr_bytes f (sh_size h) (kept_align f h) ++ z_defl z (section_bytes f h)).
  assert (LO : zlen out = chdr_size (f_c64 f) + zlen (z_defl z (section_bytes f h)))
    by (unfold out; rewrite zlen_app, chdr_bytes_len; reflexivity).
  assert (CS : 12 <= chdr_size (f_c64 f)) by (destruct (f_c64 f); cbn; lia).
  assert (UO : (if f_c64 f then zlen out else u32 (zlen out)) = zlen out).
  { destruct (f_c64 f); [reflexivity|]. unfold u32. apply Z.mod_small. lia. }
  pose proof (convert_chdr aligned junk f (sh_size h) (kept_align f h) (z_defl z (section_bytes f h))) as CC. fold out in CC.
  pose proof (reset_ok aligned junk f (set_hdr s1 (zhdr h (zlen out))) out (zlen out) 1 ELF_T_CHDR _ eq_refl ltac:(lia) CC) as RO.
  eexists. split.
  { rewrite E1, CR. cbn [obind]. fold (kept_align f h).
    cbn zeta. fold out. rewrite UO, RO. cbn [obind]. reflexivity. }
  cbn [set_z set_hdr s_hdr s_raw s_rest s_index s_rawbase s_read s_file s_first s_rear s_zbase s_zsize s_zalign ed_buf ed_size].
  split; [reflexivity|]. split; [reflexivity|]. split; [reflexivity|].
  split.
  { intros E0. destruct (SM (F0 E0)) as [X|X]; [lia|]. rewrite CR in X. discriminate. }
  split; [exact (ri_rest _ _ _ _ I1)|].
  intros aligned' junk' fl' FL'.
  destruct (flag_set (sh_flags h) PL) as (G1 & G2 & G3).
  pose proof (elf_decompress_ok aligned' junk' z f (s_index s1) (zhdr h (zlen out)) (section_bytes f h)
    (s_zsize s1) (s_zalign s1) 1 (kept_align f h)
    (EDat (Some (hdr_host f (zlen (section_bytes f h)) (kept_align f h) ++ z_defl z (section_bytes f h))) ELF_T_CHDR
       (chdr_size (f_c64 f) + zlen (z_defl z (section_bytes f h))) 0 1 1) fl' hb ZL
    (section_bytes_ok f h F) ltac:(rewrite L; lia) ltac:(lia) FL') as DC.
  cbn [zhdr sh_flags sh_type sh_offset] in DC. unfold compressed in DC. cbn [sh_flags] in DC.
  rewrite (ri_rest _ _ _ _ I1).
  rewrite L in DC. rewrite <- LO in DC.
  eexists. split.
  { apply DC; try assumption; try reflexivity.
    - rewrite G2. exact AL.
    - intros C64. unfold kept_align. rewrite C64. exact (data_align_pos f h hb H CP FC C64).
    - intros al' jk'. exact (restored_conv al' jk' f h hb (kept_align f h) F H IN PL HB). }
  cbn [s_hdr s_raw s_first s_read s_rear s_rest ed_buf ed_size]. rewrite G3.
  repeat split; reflexivity.
Qed.

(* ------------------------------------------------------------------ *)
(* The GNU format. *)
Lemma elf_compress_gnu_roundtrip : forall z f h hb s, file_ok f -> hdr_ok h -> compressible f h hb ->
  z_lossless z -> 12 + zlen (z_defl z (section_bytes f h)) < two32 ->
  rinv true f h s ->
  forall aligned junk fl, ok_flags fl ->
  (fl = 1 -> zlen (z_defl z (section_bytes f h)) <= sh_size h + 11) ->
  (exists s1, elf_compress_gnu true aligned junk z f s 1 fl = Ok (s1, inr 0) /\ fl = 0 /\ rinv true f h s1) \/
  (exists s1, elf_compress_gnu true aligned junk z f s 1 fl = Ok (s1, inr 1) /\
    let out := [90; 76; 73; 66] ++ be_bytes 8 (sh_size h) ++ z_defl z (section_bytes f h) in
    s_hdr s1 = Shdr (sh_type h) (sh_flags h) (sh_offset h) (zlen out) (sh_addralign h) /\
    ed_buf (s_raw s1) = Some out /\ ed_size (s_raw s1) = zlen out /\
    (fl = 0 -> zlen out < sh_size h) /\ s_rest s1 = [] /\
    forall aligned' junk' fl', ok_flags fl' ->
    exists s2, elf_compress_gnu true aligned' junk' z f s1 0 fl' = Ok (s2, inr 1) /\
      s_hdr s2 = h /\
      ed_buf (s_raw s2) = Some (section_bytes f h) /\ ed_size (s_raw s2) = sh_size h /\
      ed_buf (s_first s2) = Some hb /\ ed_size (s_first s2) = sh_size h /\
      s_read s2 = true /\ s_rear s2 = Some O /\ s_rest s2 = []).
Proof.
  intros z f h hb s F H CP ZL ZS I aligned junk fl FL BND.
  pose proof (cp_has_data f h hb CP) as HD. pose proof CP as [AL PL [T0 T8] SZ D HB].
  pose proof (has_data_in_file f h D HD) as IN. pose proof (section_bytes_len f h F H IN) as L.
  pose proof (zlen_nonneg _ (z_defl z (section_bytes f h))) as ZN.
  destruct (compress_ok aligned junk z f h s hb 12 (has fl 1) F H D HD PL ltac:(lia) HB I)
    as (s1 & I1 & R1 & CR & SM).
  assert (FF : has fl 1 = false -> fl = 0) by (destruct FL as [->| ->]; [auto|discriminate]).
  assert (F0 : fl = 0 -> has fl 1 = false) by (intros ->; reflexivity).
  pose (hs := fun n => Shdr (sh_type h) (sh_flags h) (sh_offset h) (if f_c64 f then n else u32 n) (sh_addralign h)).
  assert (HG : has (sh_flags h) SHF_ALLOC || has (sh_flags h) SHF_COMPRESSED = false)
    by (rewrite has_alloc, AL, has_compressed, PL; reflexivity).
  assert (E1 : forall k, elf_compress_gnu true aligned junk z f s 1 fl = k <->
     (' (s, r) <- compress true aligned junk z f s 12 (has fl 1) ;;
      match r with
      | inl e => Ok (s, inl e)
      | inr None => Ok (s, inr 0)
      | inr (Some (c, osize, oalign)) =>
        let out := ZLIB_magic ++ be_bytes 8 osize ++ c in
        s <- reset_rawdata true aligned junk f (set_hdr s (hs (zlen out))) out (zlen out) 1 ELF_T_BYTE ;;
        Ok (set_z s None (s_zsize s) (s_zalign s), inr 1)
      end) = k).
  { intros k. unfold elf_compress_gnu. rewrite (ok_flags_land fl FL), (ri_hdr _ _ _ _ I), HG. cbn [negb].
    change SHT_NULL with 0. change SHT_NOBITS with 8.
    replace ((sh_type h =? 0) || (sh_type h =? 8)) with false by lia. change (1 =? 1) with true. cbn match. reflexivity. }
  destruct CR as [CR|[FA CR]].
  2:{ left. exists s1. rewrite E1, CR. cbn [obind]. split; [reflexivity|]. split; [exact (FF FA)|exact I1]. }
  right. set (c := z_defl z (section_bytes f h)) in *.
  set (out := ZLIB_magic ++ be_bytes 8 (sh_size h) ++ c).
  assert (LB : zlen (be_bytes 8 (sh_size h)) = 8) by (unfold zlen; rewrite be_bytes_length; reflexivity).
  assert (LO : zlen out = 12 + zlen c).
  { unfold out. rewrite !zlen_app, LB. change (zlen ZLIB_magic) with 4. lia. }
  assert (UO : hs (zlen out) = Shdr (sh_type h) (sh_flags h) (sh_offset h) (zlen out) (sh_addralign h)).
  { unfold hs. destruct (f_c64 f); [reflexivity|]. unfold u32. rewrite Z.mod_small by lia. reflexivity. }
  assert (CC : convert_data true aligned junk f ELF_T_BYTE out = Ok (Some out)) by (apply convert_any; right; left; split; reflexivity).
  pose proof (reset_ok aligned junk f (set_hdr s1 (hs (zlen out))) out (zlen out) 1 ELF_T_BYTE _ eq_refl ltac:(lia) CC) as RO.
  eexists. split.
  { rewrite E1, CR. cbn [obind]. cbn zeta. fold out. rewrite RO. cbn [obind]. reflexivity. }
  cbn [set_z set_hdr s_hdr s_raw s_rest s_index s_rawbase s_read s_file s_first s_rear s_zbase s_zsize s_zalign ed_buf ed_size].
  change ([90; 76; 73; 66] ++ be_bytes 8 (sh_size h) ++ c) with out. cbn zeta. rewrite UO.
  split; [reflexivity|]. split; [reflexivity|]. split; [reflexivity|].
  assert (SM' : fl = 0 -> zlen out < sh_size h).
  { intros E0. destruct (SM (F0 E0)) as [X|X]; [lia|]. rewrite CR in X. discriminate. }
  split; [exact SM'|]. split; [exact (ri_rest _ _ _ _ I1)|].
  intros aligned' junk' fl' FL'.
  assert (Z4 : zsub out 4 8 = be_bytes 8 (sh_size h)).
  { unfold out. rewrite zsub_app_skip by (change (zlen ZLIB_magic) with 4; lia). change (4 - zlen ZLIB_magic) with 0.
    rewrite <- LB at 1. apply zsub_app_exact. }
  assert (Z12 : zsub out 12 (zlen out - 12) = c).
  { unfold out. rewrite app_assoc. rewrite zsub_app_skip by (rewrite zlen_app, LB; change (zlen ZLIB_magic) with 4; lia).
    rewrite !zlen_app, LB. change (zlen ZLIB_magic) with 4. replace (12 - (4 + 8)) with 0 by lia.
    replace (4 + 8 + zlen c - 12) with (zlen c) by lia. unfold zsub, zlen. cbn [Z.to_nat skipn]. rewrite Nat2Z.id. apply firstn_all. }
  assert (GV : be_value (be_bytes 8 (sh_size h)) = sh_size h).
  { rewrite be_value_bytes. apply Z.mod_small. change (256 ^ Z.of_nat 8) with two64. lia. }
  assert (MG : forallb (fun p => fst p =? snd p) (combine (zsub out 0 4) ZLIB_magic) = true) by reflexivity.
  assert (GS : u64 (sh_size h + 4 + 8 + 6 + 5) <? zlen out = false).
  { unfold u64. rewrite Z.mod_small by lia. destruct FL as [E0|E1']; [pose proof (SM' E0); lia|pose proof (BND E1'); lia]. }
  pose proof (decompress_defl junk' z (section_bytes f h) ZL (section_bytes_ok f h F) ltac:(lia) ltac:(fold c; lia)) as DC.
  fold c in DC. rewrite L in DC.
  eexists. split.
  { unfold elf_compress_gnu. rewrite (ok_flags_land fl' FL').
    cbn [negb set_z set_hdr s_index s_hdr s_rawbase s_raw s_read s_file s_first s_rest s_rear s_zbase s_zsize s_zalign sh_flags sh_type sh_offset sh_addralign].
    rewrite HG.
    change SHT_NULL with 0. change SHT_NOBITS with 8.
    replace ((sh_type h =? 0) || (sh_type h =? 8)) with false by lia.
    change (0 =? 1) with false. cbn match. change (0 =? 0) with true. cbn match.
    unfold rawdata. cbn [set_z s_read s_file andb negb obind s_raw ed_size ed_buf].
    replace (zlen out <? 12) with false by lia. rewrite Z.ltb_irrefl, MG. cbn [negb]. rewrite Z4, GV, GS, Z12, DC.
    pose proof (restored_conv aligned' junk' f h hb (sh_addralign h) F H IN PL HB) as RC.
    rewrite (reset_ok aligned' junk' f _ (section_bytes f h) (sh_size h) (sh_addralign h) _ hb L ltac:(lia) RC).
    cbn [obind]. reflexivity. }
  cbn [set_z set_hdr s_hdr s_raw s_first s_read s_rear s_rest ed_buf ed_size].
  assert (UH : Shdr (sh_type h) (sh_flags h) (sh_offset h) (if f_c64 f then sh_size h else u32 (sh_size h)) (sh_addralign h) = h).
  { destruct h as [a1 a2 a3 a4 a5]. cbn [sh_type sh_flags sh_offset sh_size sh_addralign] in *. destruct (f_c64 f); [reflexivity|].
    unfold u32. rewrite Z.mod_small by lia. reflexivity. }
  rewrite UH. repeat split; auto. exact (ri_rest _ _ _ _ I1).
Qed.

(* ------------------------------------------------------------------ *)
(* Decompression of arbitrary content. *)
Lemma reset_native : forall al aligned junk f s buf size align ty, zlen buf = size ->
  f_native f = true \/ ty = ELF_T_BYTE ->
  exists s', reset_rawdata al aligned junk f s buf size align ty = Ok s' /\ s_raw s' = EDat (Some buf) ty size 0 align 1 /\
    s_hdr s' = s_hdr s /\ s_zbase s' = s_zbase s.
Proof.
  intros al aligned junk f s buf size align ty L N. unfold reset_rawdata, set_data_list.
  cbn [s_raw ed_buf ed_size ed_type ed_off ed_align ed_version s_index s_hdr s_rawbase s_read s_file s_rest s_zbase s_zsize s_zalign].
  destruct (0 <? size); [|eexists; split; [reflexivity|]; repeat split; reflexivity].
  rewrite L, Z.eqb_refl. cbn [negb]. unfold convert_data.
  replace (f_native f || (ty =? ELF_T_BYTE)) with true
    by (destruct N as [-> | ->]; [reflexivity|change (ELF_T_BYTE =? ELF_T_BYTE) with true; rewrite orb_true_r; reflexivity]).
  destruct (aligned || al); cbn [obind]; eexists; (split; [reflexivity|]; repeat split; reflexivity).
Qed.

Lemma chdr_of_u32 : forall f h t sz a, file_ok f -> f_c64 f = false -> chdr_of f h = (t, sz, a) -> u32 sz = sz /\ u32 a = a.
Proof.
  intros f h t sz a F C. unfold chdr_of. rewrite C. intros [= _ <- <-].
  assert (B : forall o, 0 <= file_value f (zsub (section_bytes f h) o 4) < two32).
  { intros o. pose proof (bytes_ok_sub _ o 4 (section_bytes_ok f h F)) as O.
    assert (LL : (length (zsub (section_bytes f h) o 4) <= 4)%nat).
    { unfold zsub. rewrite firstn_length. lia. }
    assert (P : 256 ^ zlen (zsub (section_bytes f h) o 4) <= two32).
    { change two32 with (256 ^ 4). apply Z.pow_le_mono_r; unfold zlen; lia. }
    assert (P2 : 256 ^ zlen (rev (zsub (section_bytes f h) o 4)) <= two32).
    { unfold zlen in *. rewrite rev_length. exact P. }
    pose proof (le_value_bound _ O). pose proof (le_value_bound _ (bytes_ok_rev _ O)).
    unfold zlen in *. unfold file_value, be_value. destruct (Bool.eqb _ _); lia. }
  unfold u32. split; apply Z.mod_small; apply B.
Qed.

Lemma elf_decompress_validates : forall al aligned junk z f h s fl, file_ok f -> hdr_ok h -> z_safe z ->
  rinv false f h s -> ok_flags fl -> Z.testbit (sh_flags h) 1 = false -> sh_type h <> 0 -> sh_type h <> 8 -> compressed h = true ->
  f_native f = true \/ sh_type h = 1 ->
  (exists s' e, elf_compress al aligned junk z f s 0 fl = Ok (s', inl e) /\ s_hdr s' = h) \/
  (exists s' b, elf_compress al aligned junk z f s 0 fl = Ok (s', inr 1) /\
     exists size align, chdr_of f h = (1, size, align) /\ powerof2 align = true /\
       zlen b = size /\ ed_buf (s_raw s') = Some b /\ ed_size (s_raw s') = size /\
       s_hdr s' = Shdr (sh_type h) (Z.land (sh_flags h) (Z.lnot SHF_COMPRESSED)) (sh_offset h) size align).
Proof.
  intros al aligned junk z f h s fl F H ZS I FL AL T0 T8 C N.
  assert (CV : convertible f h).
  { intros _ _. unfold host_bytes. rewrite C. destruct (f_native f); discriminate. }
  unfold elf_compress. rewrite (ok_flags_land fl FL), (ri_hdr _ _ _ _ I), has_alloc, AL. cbn [negb].
  change SHT_NULL with 0. change SHT_NOBITS with 8. replace ((sh_type h =? 0) || (sh_type h =? 8)) with false by lia.
  change (0 =? 1) with false. cbn match. change (0 =? 0) with true. cbn match.
  assert (CZ : (Z.land (sh_flags h) SHF_COMPRESSED =? 0) = false).
  { pose proof (has_compressed h) as X. rewrite C in X. unfold has in X. apply negb_true_iff in X. exact X. }
  rewrite CZ.
  assert (G : (exists s1 e, (match s_zbase s with
            | Some _ => Ok (s, None)
            | None => ' (s, r) <- decompress_elf al aligned junk z f s ;;
                      match r with
                      | inl e => Ok (s, Some e)
                      | inr (b, sz, a) => Ok (set_z s (Some b) sz a, None)
                      end
            end) = Ok (s1, Some e) /\ rinv false f h s1) \/
          (exists s1 b, (match s_zbase s with
            | Some _ => Ok (s, None)
            | None => ' (s, r) <- decompress_elf al aligned junk z f s ;;
                      match r with
                      | inl e => Ok (s, Some e)
                      | inr (b, sz, a) => Ok (set_z s (Some b) sz a, None)
                      end
            end) = Ok (s1, None) /\ rinv false f h s1 /\ s_zbase s1 = Some b)).
  { destruct (s_zbase s) as [zb|] eqn:ZB; [right; exists s, zb; auto|].
    destruct (decompress_elf_inv false al aligned junk z f h s F H CV ZS ltac:(discriminate) I) as (s1 & r & E & I1 & _ & _ & P).
    rewrite E. cbn [obind]. destruct r as [e|[[b sz] a]]; [left; eauto|].
    destruct (P _ _ _ eq_refl) as (_ & L & CE & PA). right. eexists. exists b. split; [reflexivity|].
    split; [apply rinv_set_z; assumption|reflexivity]. }
  destruct G as [(s1 & e & E & I1)|(s1 & b & E & I1 & ZB)]; rewrite E; cbn [obind].
  { left. exists s1, e. split; [reflexivity|exact (ri_hdr _ _ _ _ I1)]. }
  rewrite ZB. destruct (ri_z _ _ _ _ I1 b ZB) as (_ & L & CE & PA).
  assert (NT : f_native f = true \/ data_type f (sh_type h) (s_zalign s1) = ELF_T_BYTE).
  { destruct N as [N|N]; [left; exact N|right]. rewrite N. reflexivity. }
  match goal with |- context [reset_rawdata al aligned junk f ?S b ?sz ?aa ?ty] =>
    destruct (reset_native al aligned junk f S b sz aa ty L NT) as (s2 & R & R1 & R2 & R3) end.
  rewrite R. cbn [obind]. right. exists s2, b. split; [reflexivity|]. exists (s_zsize s1), (s_zalign s1).
  split; [exact CE|]. split; [exact PA|]. split; [exact L|]. rewrite R1, R2. cbn [ed_buf ed_size set_hdr s_hdr].
  split; [reflexivity|]. split; [reflexivity|].
  destruct (f_c64 f) eqn:C64; [reflexivity|]. destruct (chdr_of_u32 f h _ _ _ F C64 CE) as [-> ->]. reflexivity.
Qed.

Lemma powerof2_pow2 : forall a, is_u64 a -> powerof2 a = true -> pow2 a.
Proof.
  intros a A P. unfold is_u64 in A. destruct (Z.eq_dec a 0) as [->|N]; [left; reflexivity|]. right.
  exists (Z.log2 a). pose proof (Z.log2_nonneg a). pose proof (Z.log2_spec a ltac:(lia)) as S.
  assert (Z.log2 a < 64). { apply Z.log2_lt_pow2; [lia|]. change (2 ^ 64) with two64. lia. }
  split; [lia|]. destruct (Z.eq_dec a (2 ^ Z.log2 a)) as [|NE]; [assumption|exfalso].
  unfold powerof2, u64 in P. rewrite Z.mod_small in P by lia. apply Z.eqb_eq in P.
  pose proof (f_equal (fun x => Z.testbit x (Z.log2 a)) P) as B. cbn beta in B. rewrite Z.land_spec, Z.bits_0 in B.
  assert (L : Z.log2 (a - 1) = Z.log2 a) by (apply Z.log2_unique; lia).
  rewrite (Z.bit_log2 a) in B by lia. rewrite <- L in B. rewrite Z.bit_log2 in B by lia. discriminate.
Qed.
Lemma chdr_align_u64 : forall f h t sz a, file_ok f -> chdr_of f h = (t, sz, a) -> is_u64 a.
Proof.
  intros f h t sz a F. 
  assert (B : forall o n, 0 <= n <= 8 -> is_u64 (file_value f (zsub (section_bytes f h) o n))).
  { intros o n Hn. pose proof (bytes_ok_sub _ o n (section_bytes_ok f h F)) as O.
    assert (LL : (length (zsub (section_bytes f h) o n) <= 8)%nat).
    { unfold zsub. rewrite firstn_length. lia. }
    assert (P : 256 ^ zlen (zsub (section_bytes f h) o n) <= two64).
    { change two64 with (256 ^ 8). apply Z.pow_le_mono_r; unfold zlen; lia. }
    assert (P2 : 256 ^ zlen (rev (zsub (section_bytes f h) o n)) <= two64).
    { unfold zlen in *. rewrite rev_length. exact P. }
    pose proof (le_value_bound _ O). pose proof (le_value_bound _ (bytes_ok_rev _ O)).
    unfold zlen, is_u64 in *. unfold file_value, be_value. destruct (Bool.eqb _ _); lia. }
  unfold chdr_of. destruct (f_c64 f); intros [= _ _ <-]; apply B; lia.
Qed.
