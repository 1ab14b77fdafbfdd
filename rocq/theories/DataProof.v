(* Proofs about DataModel: reading section data. *)
From Verif Require Import Base ElfErr XlateModel XlateSpec XlateProof XlateApiProof DataModel DataSpec.

Lemma land_pow2 : forall x n, 0 <= n -> negb (Z.land x (2 ^ n) =? 0) = Z.testbit x n.
Proof.
  intros x n Hn. destruct (Z.testbit x n) eqn:T.
  - apply negb_true_iff, Z.eqb_neq. intro E.
    assert (Z.testbit (Z.land x (2 ^ n)) n = true) as B.
    { rewrite Z.land_spec, T, Z.pow2_bits_true by lia. reflexivity. }
    rewrite E, Z.bits_0 in B. discriminate.
  - apply negb_false_iff, Z.eqb_eq. apply Z.bits_inj'. intros k Hk.
    rewrite Z.land_spec, Z.bits_0. destruct (Z.eq_dec k n) as [->|N].
    + rewrite T. reflexivity.
    + rewrite Z.pow2_bits_false by lia. apply andb_false_r.
Qed.
Lemma has_compressed : forall h, has (sh_flags h) SHF_COMPRESSED = compressed h.
Proof. intros. unfold has, compressed. change SHF_COMPRESSED with (2 ^ 11). apply land_pow2. lia. Qed.

Ltac dtypes t :=
  repeat match goal with
  | |- context [t =? ?c] => destruct (t =? c) eqn:?; [assert (t = c) by lia; subst t|]
  end.

Lemma content_type : forall f h,
  (if has (sh_flags h) SHF_COMPRESSED then ELF_T_CHDR
   else data_type f (sh_type h) (sh_addralign h)) = fst (content f h).
Proof.
  intros f h. rewrite has_compressed. unfold content. destruct (compressed h); [reflexivity|].
  unfold data_type, shtype_map, SHT_HASH. set (t := sh_type h). clearbody t.
  dtypes t; try reflexivity; destruct (f_c64 f); try reflexivity;
    try (destruct (f_hashent f =? 4); reflexivity); destruct (sh_addralign h =? 8); reflexivity.
Qed.

Lemma content_size : forall f h, (f_hashent f = 4 \/ f_hashent f = 8) ->
  entsize f h = snd (content f h) /\ 0 < snd (content f h).
Proof.
  intros f h Hh. unfold entsize. rewrite has_compressed. unfold content. destruct (compressed h); [split; reflexivity|].
  unfold shtype_map, SHT_HASH. set (t := sh_type h). clearbody t.
  dtypes t; try (split; reflexivity); destruct (f_c64 f); try (split; reflexivity);
  try (destruct Hh as [-> | ->]; split; reflexivity);
  destruct (sh_addralign h =? 8); split; reflexivity.
Qed.

(* ------------------------------------------------------------------ *)
(* Loading. *)
Definition raw_ok (f : efile) (h : shdr) (d : edat) : Prop :=
  ed_buf d = (if has_data h then Some (section_bytes f h) else None) /\
  ed_type d = fst (content f h) /\ ed_size d = sh_size h /\ ed_off d = 0 /\ ed_align d = data_align h.

Lemma section_bytes_len : forall f h, file_ok f -> hdr_ok h -> in_file f h ->
  zlen (section_bytes f h) = sh_size h.
Proof.
  intros f h (A1 & A2 & A3 & _) (_ & _ & B1 & B2 & _) I. unfold in_file in I. unfold section_bytes, is_u64 in *.
  rewrite zsub_length; lia.
Qed.

Definition ibool (f : efile) (h : shdr) : bool :=
  (sh_size h mod snd (content f h) =? 0) && (sh_offset h + sh_size h <=? f_max f).

Lemma deliverable_iff : forall f h, deliverable f h <-> (has_data h = false \/ ibool f h = true).
Proof.
  intros f h. unfold deliverable, whole_records, in_file, ibool.
  destruct (has_data h); split; intros; try (intuition (auto; lia)); try lia.
  all: try (destruct H; [discriminate|]); try (intuition (try lia)).
Qed.

Lemma set_rawdata_spec : forall al f s h, file_ok f -> hdr_ok h -> s_hdr s = h ->
  ed_buf (s_raw s) = None ->
  (deliverable f h /\ (has_data h = false \/ f_map f = true \/ al = true) /\
   exists d, raw_ok f h d /\
     set_rawdata al f s = Ok (Sec (s_index s) h (if has_data h then Some (section_bytes f h) else s_rawbase s)
       d true true (s_first s) (s_rest s) (s_rear s) (s_zbase s) (s_zsize s) (s_zalign s))) \/
  ((~ deliverable f h \/ (has_data h = true /\ f_map f = false /\ al = false)) /\
   exists e, set_rawdata al f s = Err e).
Proof.
  intros al f s h F H E N. pose proof F as (A1 & A2 & A3 & A4 & A5 & A6).
  pose proof H as (_ & _ & B1 & B2 & _). unfold is_u64 in *.
  destruct (content_size f h A6) as [C1 C2]. pose proof (content_type f h) as C3.
  unfold set_rawdata. rewrite E.
  change (negb (sh_size h =? 0) && negb (sh_type h =? SHT_NOBITS)) with (has_data h).
  rewrite deliverable_iff. unfold raw_ok, ibool.
  destruct (has_data h) eqn:HD.
  - rewrite C1. destruct (sh_size h mod snd (content f h) =? 0) eqn:M; cbn [negb].
    2:{ right. split; [left; cbn; intuition congruence|eauto]. }
    assert (B : ((f_max f <? sh_offset h) || (f_max f - sh_offset h <? sh_size h))
                = negb (sh_offset h + sh_size h <=? f_max f)) by lia.
    rewrite B. destruct (sh_offset h + sh_size h <=? f_max f) eqn:I; cbn [negb andb].
    2:{ right. split; [left; intuition congruence|]. destruct (f_map f); [eauto|].
        destruct A5 as [A5|A5]; [discriminate|]. rewrite A5. eauto. }
    destruct (f_map f) eqn:MP.
    + left. split; [auto|]. split; [auto|].
      unfold map_bytes. replace ((0 <=? f_start f + sh_offset h) && (f_start f + sh_offset h + sh_size h <=? zlen (f_img f)))%bool with true by lia.
      cbn [obind]. eexists. split; [|unfold section_bytes; reflexivity].
      cbn [ed_buf ed_type ed_size ed_off ed_align]. unfold section_bytes. auto.
    + destruct A5 as [A5|A5]; [discriminate|]. rewrite A5. destruct al; cbn [negb].
      * left. split; [auto|]. split; [auto|].
        assert (P : pread f (sh_offset h) (sh_size h) = section_bytes f h).
        { unfold pread, section_bytes. f_equal. lia. }
        rewrite P. assert (IN : in_file f h) by (unfold in_file; lia).
        rewrite (section_bytes_len f h F H IN), Z.eqb_refl.
        eexists. split; [|reflexivity]. cbn [ed_buf ed_type ed_size ed_off ed_align]. auto.
      * right. split; [right; auto|eauto].
  - left. split; [auto|]. split; [auto|]. rewrite N. eexists. split; [|reflexivity].
    cbn [ed_buf ed_type ed_size ed_off ed_align]. auto.
Qed.

(* ------------------------------------------------------------------ *)
(* Conversion. *)
Lemma fresh_rdm : forall raw junk, rdm (fresh raw junk) 0 (length raw) = raw.
Proof.
  intros raw junk. apply nth_ext with (d := 0) (d' := 0); [apply rdm_len|].
  intros n Hn. rewrite rdm_len in Hn. rewrite nth_rdm by exact Hn.
  unfold fresh, zlen. replace ((0 <=? 0 + Z.of_nat n) && (0 + Z.of_nat n <? Z.of_nat (length raw)))%bool with true by lia.
  f_equal. lia.
Qed.

Lemma conv_records : forall c64 le ty ws raw junk, spec_widths c64 ty = Some ws ->
  zlen raw mod Z.of_nat (total ws) = 0 ->
  conv c64 le ty raw junk = Ok (swap_records ws (Z.to_nat (zlen raw / Z.of_nat (total ws))) raw).
Proof.
  intros c64 le ty ws raw junk W M. unfold conv. pose proof (zlen_nonneg _ raw).
  destruct (xfct_records c64 ty ws le false (fresh raw junk) (zlen raw) 0 (zlen raw) W) as (m' & X & R & _);
    [lia|exact M|right; right; lia|].
  rewrite X. cbn [obind]. rewrite R. unfold zlen at 2. rewrite Nat2Z.id, fresh_rdm. reflexivity.
Qed.
Lemma conv_chdr : forall c64 le raw junk, conv c64 le ELF_T_CHDR raw junk = Ok (swap_chdr c64 raw).
Proof.
  intros c64 le raw junk. unfold conv. pose proof (zlen_nonneg _ raw).
  change (xfct c64 ELF_T_CHDR le false (fresh raw junk) (zlen raw) 0 (zlen raw))
    with (Ok (cvt_chdr c64 (fresh raw junk) (zlen raw) 0 (zlen raw))). cbn [obind].
  destruct (cvt_chdr_ok c64 (fresh raw junk) (zlen raw) 0 (zlen raw)) as [R _]; [lia|lia|].
  rewrite R. unfold zlen. rewrite Nat2Z.id, fresh_rdm. reflexivity.
Qed.
Lemma swap_chdr_len : forall c64 b, length (swap_chdr c64 b) = length b.
Proof.
  intros c64 b. unfold swap_chdr. destruct (total _ <=? length b)%nat eqn:E; [|reflexivity].
  rewrite app_length, swap_widths_len, firstn_length, skipn_length. apply Nat.leb_le in E. lia.
Qed.

Lemma host_bytes_len : forall f h b, file_ok f -> hdr_ok h -> in_file f h ->
  host_bytes f h = Some b -> zlen b = sh_size h.
Proof.
  intros f h b F H I. rewrite <- (section_bytes_len f h F H I). unfold host_bytes.
  destruct (f_native f); [congruence|]. destruct (compressed h).
  { intros [= <-]. unfold zlen. rewrite swap_chdr_len. reflexivity. }
  destruct (spec_widths _ _); [|discriminate]. destruct (_ =? 0); [|discriminate].
  intros [= <-]. unfold zlen. rewrite swap_records_len. reflexivity.
Qed.

Lemma byte_records : forall n b, length b = n -> swap_records [1%nat] n b = b.
Proof. exact swap_records_1. Qed.

Lemma convert_spec : forall al aligned junk f h b, file_ok f -> hdr_ok h -> in_file f h ->
  host_bytes f h = Some b ->
  (convert_data al aligned junk f (fst (content f h)) (section_bytes f h) = Ok (Some b)) \/
  (al = false /\ convert_data al aligned junk f (fst (content f h)) (section_bytes f h) = Ok None).
Proof.
  intros al aligned junk f h b F H I. pose proof (section_bytes_len f h F H I) as L.
  unfold host_bytes, convert_data. destruct (f_native f) eqn:N; cbn [orb].
  { intros [= <-]. destruct aligned, al; cbn; auto. }
  unfold content. destruct (compressed h) eqn:C.
  { intros [= <-]. cbn [fst]. change (25 =? ELF_T_BYTE) with false. destruct al; cbn [negb]; [|auto].
    change 25 with ELF_T_CHDR. rewrite conv_chdr. auto. }
  fold (content f h).
  assert (CT : forall X : Z * Z, X = content f h -> fst X = fst (content f h)) by congruence.
  match goal with |- context [fst ?X] => set (ct := X) end.
  destruct (spec_widths (f_c64 f) (fst ct)) as [ws|] eqn:W; [|discriminate].
  destruct (sh_size h mod Z.of_nat (total ws) =? 0) eqn:M; [|discriminate].
  intros [= <-]. destruct (fst ct =? ELF_T_BYTE) eqn:B.
  - assert (fst ct = 0) as E0 by (apply Z.eqb_eq; exact B). rewrite E0 in W. injection W as <-.
    cbn [total fold_right Nat.add]. change (Z.of_nat 1) with 1. rewrite Z.div_1_r.
    rewrite swap_records_1 by (unfold zlen in L; lia). destruct aligned, al; cbn; auto.
  - destruct al; cbn [negb]; [|auto].
    rewrite (conv_records _ _ _ ws) by (try exact W; rewrite L; lia). rewrite L. auto.
Qed.

(* ------------------------------------------------------------------ *)
(* Reading histories. *)
Definition data_ok (f : efile) (h : shdr) (d : edat) : Prop :=
  ed_buf d = (if has_data h then host_bytes f h else None) /\
  ed_type d = fst (content f h) /\ ed_size d = sh_size h /\ ed_off d = 0 /\ ed_align d = data_align h.

Record rinv (strict : bool) (f : efile) (h : shdr) (s : sec) : Prop := RInv {
  ri_hdr : s_hdr s = h;
  ri_rest : s_rest s = [];
  ri_base : forall b, s_rawbase s = Some b -> b = section_bytes f h /\ in_file f h;
  ri_unread : s_read s = false -> ed_buf (s_raw s) = None /\ s_rear s = None;
  ri_read : s_read s = true -> s_file s = true /\ deliverable f h /\ raw_ok f h (s_raw s) /\
            (has_data h = true -> s_rawbase s = Some (section_bytes f h));
  ri_rear : s_rear s = None \/
            (s_rear s = Some O /\ (data_ok f h (s_first s) \/ (strict = false /\ s_first s = edat0)));
  ri_first : s_rear s = None -> s_first s = edat0;
  ri_z : forall b, s_zbase s = Some b -> compressed h = true /\ zlen b = s_zsize s /\
            chdr_of f h = (1, s_zsize s, s_zalign s) /\ powerof2 (s_zalign s) = true }.

Lemma has_data_in_file : forall f h, deliverable f h -> has_data h = true -> in_file f h.
Proof. intros f h D H. exact (proj2 (D H)). Qed.

Lemma set_data_list_inv : forall strict al aligned junk f h s, file_ok f -> hdr_ok h -> convertible f h ->
  (strict = true -> al = true) -> rinv strict f h s -> s_read s = true -> s_rear s = None ->
  exists s', set_data_list al aligned junk f s = Ok s' /\ rinv strict f h s' /\ s_read s' = true /\
    s_rear s' = Some O.
Proof.
  intros strict al aligned junk f h s F H CV ST I R1 R2. destruct I as [h1 h2 h3 h4 h5 h6 h7 h8].
  destruct (h5 R1) as (A1 & A2 & (B1 & B2 & B3 & B4 & B5) & A4). unfold set_data_list.
  destruct (has_data h) eqn:HD; rewrite B1.
  - pose proof (has_data_in_file f h A2 HD) as IN.
    pose proof (section_bytes_len f h F H IN) as L.
    assert (SP : 0 < sh_size h).
    { destruct H as (_ & _ & _ & U & _). unfold is_u64 in U. unfold has_data in HD. lia. }
    rewrite B3. replace (0 <? sh_size h) with true by lia. rewrite L, Z.eqb_refl. cbn [negb].
    rewrite B2.
    destruct (host_bytes f h) as [hb|] eqn:HB; [|destruct (CV HD (proj1 (A2 HD)) HB)].
    destruct (convert_spec al aligned junk f h hb F H IN HB) as [C|[C1 C]]; rewrite C; cbn [obind].
    + eexists. split; [reflexivity|]. split; [|split; [exact R1|reflexivity]].
      constructor; cbn [s_hdr s_rest s_rawbase s_read s_raw s_rear s_first s_zbase s_zsize s_file]; try assumption.
      * rewrite R1. discriminate.
      * intros _. split; [exact A1|]. split; [exact A2|]. split; [|intros _; exact (A4 eq_refl)].
        unfold raw_ok. rewrite HD. auto.
      * right. split; [reflexivity|]. left. unfold data_ok. cbn [ed_buf ed_type ed_size ed_off ed_align]. rewrite HD, HB. auto.
      * discriminate.
    + eexists. split; [reflexivity|]. split; [|split; [exact R1|reflexivity]].
      constructor; cbn [s_hdr s_rest s_rawbase s_read s_raw s_rear s_first s_zbase s_zsize s_file]; try assumption.
      * rewrite R1. discriminate.
      * intros _. split; [exact A1|]. split; [exact A2|]. split; [|intros _; exact (A4 eq_refl)].
        unfold raw_ok. rewrite HD. auto.
      * right. split; [reflexivity|]. right. split; [|auto]. destruct strict; [|reflexivity].
        rewrite ST in C1 by reflexivity. discriminate.
      * discriminate.
  - eexists. split; [reflexivity|]. split; [|split; [exact R1|reflexivity]].
    constructor; cbn [s_hdr s_rest s_rawbase s_read s_raw s_rear s_first s_zbase s_zsize s_file]; try assumption.
    + rewrite R1. discriminate.
    + intros _. split; [exact A1|]. split; [exact A2|]. split; [unfold raw_ok; rewrite HD; auto|]. rewrite HD. discriminate.
    + right. split; [reflexivity|]. left. unfold data_ok. rewrite HD. auto.
    + discriminate.
Qed.

(* set_rawdata from an unread state *)
Lemma load_inv : forall strict al f h s, file_ok f -> hdr_ok h -> rinv strict f h s -> s_read s = false ->
  (deliverable f h /\ exists s', set_rawdata al f s = Ok s' /\ rinv strict f h s' /\ s_read s' = true /\
     s_rear s' = None /\ s_zbase s' = s_zbase s /\ s_zsize s' = s_zsize s) \/
  ((strict = true -> al = true -> ~ deliverable f h) /\ exists e, set_rawdata al f s = Err e).
Proof.
  intros strict al f h s F H I R. destruct I as [h1 h2 h3 h4 h5 h6 h7 h8]. destruct (h4 R) as [N1 N2].
  destruct (set_rawdata_spec al f s h F H h1 N1) as [(D & _ & d & RO & E)|(D & e & E)].
  - left. split; [exact D|]. rewrite E. eexists. split; [reflexivity|].
    split; [|split; [reflexivity|split; [exact N2|split; reflexivity]]].
    constructor; cbn [s_hdr s_rest s_rawbase s_read s_raw s_rear s_first s_zbase s_zsize s_file]; try assumption; try discriminate.
    + reflexivity.
    + destruct (has_data h) eqn:HD; [|exact h3]. intros b [= <-]. split; [reflexivity|].
      exact (has_data_in_file f h D HD).
    + intros _. split; [reflexivity|]. split; [exact D|]. split; [exact RO|]. intros ->. reflexivity.
  - right. split; [|eauto]. intros _ AL. destruct D as [D|(_ & _ & D)]; [exact D|congruence].
Qed.

Lemma getdata_inv : forall strict al aligned junk f h s, file_ok f -> hdr_ok h -> convertible f h ->
  (strict = true -> al = true) -> rinv strict f h s ->
  exists s' r, getdata al aligned junk f s DNull = Ok (s', r) /\ rinv strict f h s' /\
    ((deliverable f h /\ r = RData O /\ s_read s' = true /\ s_rear s' = Some O) \/
     ((strict = true -> ~ deliverable f h) /\ exists e, r = RNull (Some e))) /\
    (s_zbase s' = s_zbase s) /\ (s_zsize s' = s_zsize s).
Proof.
  intros strict al aligned junk f h s F H CV ST I. unfold getdata.
  assert (G : forall s1, rinv strict f h s1 -> s_read s1 = true ->
    exists s', (if isSome (s_rear s1) then Ok s1 else set_data_list al aligned junk f s1) = Ok s' /\
      rinv strict f h s' /\ s_read s' = true /\ s_rear s' = Some O /\ s_zbase s' = s_zbase s1 /\ s_zsize s' = s_zsize s1).
  { intros s1 I1 R1. destruct (s_rear s1) as [r|] eqn:RR; cbn [isSome].
    - exists s1. split; [reflexivity|]. split; [exact I1|]. split; [exact R1|].
      destruct (ri_rear _ _ _ _ I1) as [C|[C _]]; [congruence|auto].
    - destruct (set_data_list_inv strict al aligned junk f h s1 F H CV ST I1 R1 RR) as (s' & E & I' & R' & RR').
      exists s'. rewrite E. split; [reflexivity|]. split; [exact I'|]. split; [exact R'|]. split; [exact RR'|].
      unfold set_data_list in E. destruct (ed_buf (s_raw s1)); [|injection E as <-; auto].
      destruct (0 <? ed_size (s_raw s1)); [|injection E as <-; auto].
      destruct (negb _); [discriminate|]. destruct (convert_data _ _ _ _ _ _) as [[|]| | |]; cbn [obind] in E; try discriminate;
        injection E as <-; auto. }
  destruct (s_read s) eqn:R.
  - destruct (G s I R) as (s' & E & I' & R' & RR & Z1 & Z2). rewrite E. cbn [obind].
    exists s', (RData O). split; [reflexivity|]. split; [exact I'|]. split; [|auto].
    left. split; [exact (proj1 (proj2 (ri_read _ _ _ _ I R)))|auto].
  - destruct (load_inv strict al f h s F H I R) as [(D & s1 & E & I1 & R1 & RR1 & Z1 & Z2)|(D & e & E)]; rewrite E.
    + destruct (G s1 I1 R1) as (s' & E' & I' & R' & RR & Z1' & Z2'). rewrite E'. cbn [obind].
      exists s', (RData O). split; [reflexivity|]. split; [exact I'|]. split; [auto|]. split; congruence.
    + exists s, (RNull (Some e)). split; [reflexivity|]. split; [exact I|]. split; [|auto].
      right. split; [intros S; exact (D S (ST S))|eauto].
Qed.

Lemma rawdata_inv : forall strict al f h s, file_ok f -> hdr_ok h ->
  (strict = true -> al = true) -> rinv strict f h s ->
  exists s' r, rawdata al f s DNull = Ok (s', r) /\ rinv strict f h s' /\
    ((deliverable f h /\ r = None /\ raw_ok f h (s_raw s')) \/
     ((strict = true -> ~ deliverable f h) /\ exists e, r = Some e)).
Proof.
  intros strict al f h s F H ST I. unfold rawdata. destruct (s_read s) eqn:R; cbn [andb].
  - destruct (ri_read _ _ _ _ I R) as (A & D & RO & _). rewrite A. cbn [negb].
    exists s, None. split; [reflexivity|]. split; [exact I|]. left. auto.
  - destruct (load_inv strict al f h s F H I R) as [(D & s1 & E & I1 & R1 & RR1 & Z1 & Z2)|(D & e & E)]; rewrite E.
    + exists s1, None. split; [reflexivity|]. split; [exact I1|]. left. split; [exact D|]. split; [reflexivity|].
      exact (proj1 (proj2 (proj2 (ri_read _ _ _ _ I1 R1)))).
    + exists s, (Some e). split; [reflexivity|]. split; [exact I|]. right. split; [intros S; exact (D S (ST S))|eauto].
Qed.

(* ------------------------------------------------------------------ *)
(* Decompression. *)
Lemma inflate_loop_ok : forall z, z_safe z -> forall fuel inp room, (length inp <= fuel)%nat -> 0 <= room ->
  (exists out r, inflate_loop fuel z inp room = Ok (out, r) /\ r = room - zlen out /\ 0 <= r) \/
  inflate_loop fuel z inp room = Err ELF_E_DECOMPRESS_ERROR.
Proof.
  intros z ZS. induction fuel as [|fuel IH]; intros inp room L R.
  - destruct inp; [|cbn in L; lia]. left. exists [], room. cbn [inflate_loop]. rewrite zlen_nil. split; [reflexivity|lia].
  - cbn [inflate_loop]. destruct inp as [|x inp].
    { left. exists [], room. rewrite zlen_nil. split; [reflexivity|lia]. }
    destruct (z_infl z (x :: inp) room) as [[out rest]|] eqn:E; [|auto].
    destruct (ZS _ _ _ _ E) as [S1 S2].
    destruct (IH rest (room - zlen out)) as [(o2 & r2 & X & Y & W)|X]; [lia|lia| |]; rewrite X; cbn [obind]; [|auto].
    left. exists (out ++ o2), r2. rewrite zlen_app. split; [reflexivity|]. lia.
Qed.

Lemma decompress_ok : forall al junk z inp size, z_safe z -> 0 <= size ->
  (exists out, decompress al junk z inp size = Ok out /\ zlen out = size) \/
  (exists e, decompress al junk z inp size = Err e).
Proof.
  intros al junk z inp size ZS Hs. unfold decompress.
  destruct (zlen inp <? size / 1032); [eauto|]. destruct al; cbn [negb]; [|eauto].
  set (inp' := firstn _ inp).
  pose proof (Z.mod_pos_bound size two32 ltac:(lia)) as B.
  pose proof (Z.mod_le size two32 Hs ltac:(lia)) as B2.
  destruct (inflate_loop_ok z ZS (length inp') inp' (u32 size)) as [(out & r & X & Y & W)|X];
    [lia|unfold u32; lia| |]; rewrite X; cbn [obind]; [|eauto].
  destruct (r =? 0) eqn:E; [|eauto]. left. eexists. split; [reflexivity|].
  rewrite zlen_app, zlen_rdm. unfold u32 in *. lia.
Qed.

Lemma le_value_nonneg : forall b, bytes_ok b -> 0 <= le_value b.
Proof. intros b H. exact (proj1 (le_value_bound b H)). Qed.
Lemma bytes_ok_rev : forall b, bytes_ok b -> bytes_ok (rev b).
Proof. intros b H. unfold bytes_ok in *. apply Forall_rev. exact H. Qed.
Lemma hval_nonneg : forall le b, bytes_ok b -> 0 <= hval le b.
Proof.
  intros le b H. unfold hval, be_value. destruct le; apply le_value_nonneg; [exact H|]. apply bytes_ok_rev, H.
Qed.
Lemma bytes_ok_firstn : forall b n, bytes_ok b -> bytes_ok (firstn n b).
Proof. intros b n H. rewrite <- (firstn_skipn n b) in H. apply bytes_ok_app in H. tauto. Qed.
Lemma bytes_ok_skipn : forall b n, bytes_ok b -> bytes_ok (skipn n b).
Proof. intros b n H. rewrite <- (firstn_skipn n b) in H. apply bytes_ok_app in H. tauto. Qed.
Lemma bytes_ok_sub : forall b o n, bytes_ok b -> bytes_ok (zsub b o n).
Proof. intros b o n H. unfold zsub. apply bytes_ok_firstn, bytes_ok_skipn, H. Qed.
Lemma swap_widths_ok : forall ws b, bytes_ok b -> bytes_ok (swap_widths ws b).
Proof.
  induction ws as [|w ws IH]; intros b H; [exact H|]. cbn [swap_widths]. apply bytes_ok_app. split.
  - apply bytes_ok_rev, bytes_ok_firstn, H.
  - apply IH, bytes_ok_skipn, H.
Qed.
Lemma swap_records_ok : forall ws n b, bytes_ok b -> bytes_ok (swap_records ws n b).
Proof.
  induction n as [|n IH]; intros b H; [exact H|]. cbn [swap_records]. apply bytes_ok_app. split.
  - apply swap_widths_ok, bytes_ok_firstn, H.
  - apply IH, bytes_ok_skipn, H.
Qed.
Lemma swap_chdr_ok : forall c64 b, bytes_ok b -> bytes_ok (swap_chdr c64 b).
Proof.
  intros c64 b H. unfold swap_chdr. destruct (_ <=? _)%nat; [|exact H]. apply bytes_ok_app. split.
  - apply swap_widths_ok, bytes_ok_firstn, H.
  - apply bytes_ok_skipn, H.
Qed.
Lemma section_bytes_ok : forall f h, file_ok f -> bytes_ok (section_bytes f h).
Proof. intros f h (_ & _ & _ & H & _). apply bytes_ok_sub, H. Qed.
Lemma host_bytes_ok : forall f h b, file_ok f -> host_bytes f h = Some b -> bytes_ok b.
Proof.
  intros f h b F. pose proof (section_bytes_ok f h F) as O. unfold host_bytes.
  destruct (f_native f); [congruence|]. destruct (compressed h); [intros [= <-]; apply swap_chdr_ok, O|].
  destruct (spec_widths _ _); [|discriminate]. destruct (_ =? 0); [|discriminate].
  intros [= <-]. apply swap_records_ok, O.
Qed.

Lemma swap_split : forall w ws (b : bytes), (w <= length b)%nat ->
  swap_widths (w :: ws) b = rev (firstn w b) ++ swap_widths ws (skipn w b).
Proof. reflexivity. Qed.
Lemma hval_rev : forall le b, hval le (rev b) = hval (negb le) b.
Proof. intros [] b; unfold hval, be_value; cbn [negb]; rewrite ?rev_involutive; reflexivity. Qed.
Lemma firstn_in : forall (a b : bytes) n, (n <= length a)%nat -> firstn n (a ++ b) = firstn n a.
Proof. intros a b n H. rewrite firstn_app. replace (n - length a)%nat with O by lia. cbn [firstn]. apply app_nil_r. Qed.
Lemma skipn_in : forall (a b : bytes) n, (n <= length a)%nat -> skipn n (a ++ b) = skipn n a ++ b.
Proof. intros a b n H. rewrite skipn_app. replace (n - length a)%nat with O by lia. reflexivity. Qed.

Lemma chdr_read : forall f h hb, compressed h = true -> chdr_size (f_c64 f) <= zlen (section_bytes f h) ->
  host_bytes f h = Some hb ->
  (if f_c64 f then (hval (f_le f) (zsub hb 0 4), hval (f_le f) (zsub hb 8 8), hval (f_le f) (zsub hb 16 8))
   else (hval (f_le f) (zsub hb 0 4), hval (f_le f) (zsub hb 4 4), hval (f_le f) (zsub hb 8 4))) = chdr_of f h.
Proof.
  intros f h hb C L. unfold host_bytes, chdr_of, file_value. set (raw := section_bytes f h) in *.
  destruct (f_native f) eqn:N.
  { intros [= <-]. destruct (f_le f); reflexivity. }
  rewrite C. intros [= <-]. unfold swap_chdr.
  assert (T : (total (chdr_widths (f_c64 f)) <= length raw)%nat).
  { unfold zlen, chdr_size in L. destruct (f_c64 f); cbn [chdr_widths total fold_right Nat.add]; lia. }
  apply Nat.leb_le in T. rewrite T. apply Nat.leb_le in T.
  set (le := f_le f) in *.
  assert (V : forall b, hval le (rev b) = if Bool.eqb false le then le_value b else be_value b)
    by (intros b; rewrite hval_rev; destruct le; reflexivity).
  revert T. unfold chdr_widths. destruct (f_c64 f); cbn [total fold_right Nat.add]; intros T; unfold zsub.
  - change (Z.to_nat 0) with 0%nat. change (Z.to_nat 4) with 4%nat. change (Z.to_nat 8) with 8%nat. change (Z.to_nat 16) with 16%nat.
    do 24 (destruct raw as [|? raw]; [cbn [length] in T; lia|]). cbn [firstn skipn swap_widths rev app]. rewrite <- !V.
    reflexivity.
  - change (Z.to_nat 0) with 0%nat. change (Z.to_nat 4) with 4%nat. change (Z.to_nat 8) with 8%nat.
    do 12 (destruct raw as [|? raw]; [cbn [length] in T; lia|]). cbn [firstn skipn swap_widths rev app]. rewrite <- !V.
    reflexivity.
Qed.

Ltac fin s I := exists s; eexists; split; [reflexivity|]; split; [exact I|]; split; [congruence|];
  split; [congruence|]; intros; discriminate.

Lemma getchdr_inv : forall strict al aligned junk f h s, file_ok f -> hdr_ok h -> convertible f h ->
  (strict = true -> al = true) -> rinv strict f h s ->
  exists s' r, getchdr al aligned junk f s = Ok (s', r) /\ rinv strict f h s' /\
    s_zbase s' = s_zbase s /\ s_zsize s' = s_zsize s /\
    (forall t sz a, r = inr (t, sz, a) -> (t, sz, a) = chdr_of f h /\ compressed h = true /\ 0 <= sz /\ data_ok f h (s_first s') /\ has_data h = true /\
       deliverable f h /\ chdr_size (f_c64 f) <= sh_size h).
Proof.
  intros strict al aligned junk f h s F H CV ST I. unfold getchdr.
  destruct (has _ SHF_ALLOC); [fin s I|].
  destruct (_ || _); [fin s I|].
  destruct (negb _) eqn:CC; [fin s I|].
  assert (CO : compressed h = true).
  { rewrite (ri_hdr _ _ _ _ I), has_compressed in CC. destruct (compressed h); [reflexivity|discriminate]. }
  destruct (getdata_inv strict al aligned junk f h s F H CV ST I) as (s' & r & E & I' & [(D & -> & R & RR)|(D & e & ->)] & Z1 & Z2);
    rewrite E; cbn [obind].
  2:{ fin s' I'. }
  unfold data_at. cbn [nth_error].
  destruct (ri_rear _ _ _ _ I') as [C|[_ [DO|[_ EF]]]]; [congruence| |].
  - destruct DO as (B1 & B2 & B3 & B4 & B5). rewrite B1. destruct (has_data h) eqn:HD.
    2:{ fin s' I'. }
    destruct (host_bytes f h) as [hb|] eqn:HB; [|fin s' I'].
    rewrite B3. destruct (sh_size h <? chdr_size (f_c64 f)) eqn:LS;
      [fin s' I'|].
    pose proof (host_bytes_len f h hb F H (has_data_in_file f h D HD) HB) as HL.
    pose proof (host_bytes_ok f h hb F HB) as HO.
    rewrite HL, LS.
    assert (DO : data_ok f h (s_first s')) by (unfold data_ok; rewrite HD, HB; auto).
    pose proof (chdr_read f h hb CO ltac:(rewrite (section_bytes_len f h F H (has_data_in_file f h D HD)); lia) HB) as CR.
    revert LS CR; destruct (f_c64 f); intros LS CR; (exists s'; eexists; split; [reflexivity|]; split; [exact I'|]; split; [exact Z1|];
      split; [exact Z2|]; intros t sz a [= <- <- <-]; split; [exact CR|]; split; [exact CO|]; split; [apply hval_nonneg, bytes_ok_sub, HO|]; split; [exact DO|]; split; [reflexivity|]; split; [exact D|lia]).
  - rewrite EF. cbn [ed_buf edat0]. fin s' I'.
Qed.

Lemma decompress_elf_inv : forall strict al aligned junk z f h s, file_ok f -> hdr_ok h -> convertible f h -> z_safe z ->
  (strict = true -> al = true) -> rinv strict f h s ->
  exists s' r, decompress_elf al aligned junk z f s = Ok (s', r) /\ rinv strict f h s' /\
    s_zbase s' = s_zbase s /\ s_zsize s' = s_zsize s /\
    (forall b sz a, r = inr (b, sz, a) -> compressed h = true /\ zlen b = sz /\ chdr_of f h = (1, sz, a) /\ powerof2 a = true).
Proof.
  intros strict al aligned junk z f h s F H CV ZS ST I. unfold decompress_elf.
  destruct (getchdr_inv strict al aligned junk f h s F H CV ST I) as (s1 & r & E & I1 & Z1 & Z2 & P).
  rewrite E. cbn [obind]. destruct r as [e|[[t sz] a]].
  { fin s1 I1. }
  destruct (P _ _ _ eq_refl) as (CE & CO & S0 & DO & HD & D & LS).
  destruct (negb (t =? 1)) eqn:T1; [fin s1 I1|].
  destruct (negb (powerof2 a)) eqn:PA; [fin s1 I1|].
  destruct (getdata_inv strict al aligned junk f h s1 F H CV ST I1) as (s2 & r & E2 & I2 & [(_ & -> & R & RR)|(_ & e & ->)] & Z3 & Z4);
    rewrite E2; cbn [obind].
  2:{ fin s2 I2. }
  unfold data_at. cbn [nth_error].
  assert (SF : s_first s2 = s_first s1).
  { unfold getdata in E2. destruct (s_read s1) eqn:R1.
    2:{ destruct (ri_unread _ _ _ _ I1 R1) as [_ U]. pose proof (ri_first _ _ _ _ I1 U) as U2.
        destruct DO as (X & _). rewrite U2, HD in X. cbn [ed_buf edat0] in X.
        destruct (host_bytes f h) eqn:HB; [discriminate|]. destruct (CV HD (proj1 (D HD)) HB). }
    destruct (s_rear s1) eqn:RR1; cbn [isSome obind] in E2; [injection E2 as <-; reflexivity|].
    pose proof (ri_first _ _ _ _ I1 RR1) as U2. destruct DO as (X & _). rewrite U2, HD in X. cbn [ed_buf edat0] in X.
    destruct (host_bytes f h) eqn:HB; [discriminate|]. destruct (CV HD (proj1 (D HD)) HB). }
  rewrite SF. destruct DO as (B1 & B2 & B3 & B4 & B5). rewrite B1, HD.
  destruct (host_bytes f h) as [hb|] eqn:HB; [|destruct (CV HD (proj1 (D HD)) HB)].
  pose proof (host_bytes_len f h hb F H (has_data_in_file f h D HD) HB) as HL.
  rewrite B3, HL, Z.ltb_irrefl.
  destruct (decompress_ok al junk z (zsub hb (chdr_size (f_c64 f)) (sh_size h - chdr_size (f_c64 f))) sz ZS S0) as [(out & X & L)|(e & X)]; rewrite X.
  - exists s2. eexists. split; [reflexivity|]. split; [exact I2|]. split; [congruence|]. split; [congruence|].
    intros b sz' a' [= <- <- <-]. split; [exact CO|]. split; [exact L|].
    replace t with 1 in CE by lia. split; [congruence|]. destruct (powerof2 a); [reflexivity|discriminate].
  - fin s2 I2.
Qed.

Lemma rinv_set_z : forall strict f h s b sz a, rinv strict f h s -> compressed h = true -> zlen b = sz ->
  chdr_of f h = (1, sz, a) -> powerof2 a = true ->
  rinv strict f h (set_z s (Some b) sz a).
Proof.
  intros strict f h s b sz a [h1 h2 h3 h4 h5 h6 h7 h8] C L CE PA. constructor; try assumption.
  cbn [set_z s_zbase s_zsize s_zalign]. intros b' [= <-]. auto.
Qed.

Lemma existsb_term : forall b o n, 0 <= o -> o + n <= zlen b -> 
  existsb (fun x => x =? 0) (zsub b o n) = true <-> exists k, o <= k < o + n /\ znth b k = Some 0.
Proof.
  intros b o n Ho Hn. rewrite existsb_exists. split.
  - intros (x & I & X). assert (x = 0) by lia. subst x. apply In_znth in I. destruct I as (i & Hi & E).
    assert (0 <= n) by (unfold zsub, zlen in Hi; rewrite firstn_length in Hi; lia).
    rewrite zsub_length in Hi by lia. exists (o + i). split; [lia|]. rewrite znth_zsub in E by lia. exact E.
  - intros (k & K & E). exists 0. split; [|reflexivity]. apply (znth_In _ _ (k - o)). rewrite znth_zsub by lia.
    replace (o + (k - o)) with k by lia. exact E.
Qed.

Lemma validate_ok : forall b o n, 0 <= o < n -> zlen b = n ->
  validate_str b o n = Ok true /\ terminated b o \/ validate_str b o n = Ok false /\ ~ terminated b o.
Proof.
  intros b o n H L. unfold validate_str. replace (n <=? o) with false by lia. replace (zlen b <? n) with false by lia.
  pose proof (existsb_term b o (n - o) ltac:(lia) ltac:(lia)) as X.
  replace (o + (n - o)) with (zlen b) in X by lia. fold (terminated b o) in X.
  destruct (existsb _ _); [left|right]; split; try reflexivity; rewrite <- X; congruence.
Qed.

Lemma strtab_content : forall f h, sh_type h = 3 -> compressed h = false -> content f h = (0, 1).
Proof. intros f h T C. unfold content. rewrite C, T. reflexivity. Qed.
Lemma strtab_host : forall f h, sh_type h = 3 -> compressed h = false -> file_ok f -> hdr_ok h -> in_file f h ->
  host_bytes f h = Some (section_bytes f h).
Proof.
  intros f h T C F H I. unfold host_bytes. rewrite (strtab_content f h T C), C. cbn [fst]. destruct (f_native f); [reflexivity|].
  cbn [spec_widths total fold_right Nat.add]. change (Z.of_nat 1) with 1. rewrite Z.mod_1_r. cbn [Z.eqb].
  rewrite Z.div_1_r. rewrite swap_records_1; [reflexivity|]. pose proof (section_bytes_len f h F H I). unfold zlen in *. lia.
Qed.
Lemma strtab_convertible : forall f h, sh_type h = 3 -> convertible f h.
Proof.
  intros f h T _ _. unfold host_bytes. destruct (f_native f); [discriminate|].
  destruct (compressed h) eqn:C; [discriminate|]. rewrite (strtab_content f h T C).
  cbn [fst spec_widths total fold_right Nat.add]. change (Z.of_nat 1) with 1. rewrite Z.mod_1_r. discriminate.
Qed.

Definition str_post (strict : bool) (f : efile) (h : shdr) (o : Z) (r : option (bytes * Z)) (e : option Z) : Prop :=
  (forall b p, r = Some (b, p) -> p = o /\ terminated b o /\ sh_type h = 3 /\
     (compressed h = false -> b = section_bytes f h /\ o < sh_size h /\ deliverable f h)) /\
  (r = None -> strict = true -> (exists n, e = Some n) /\
     (sh_type h = 3 -> compressed h = false ->
        ~ deliverable f h \/ sh_size h <= o \/ ~ terminated (section_bytes f h) o)).

Lemma str_load_inv : forall strict al f h s, file_ok f -> hdr_ok h -> (strict = true -> al = true) -> rinv strict f h s ->
  exists s' e, str_load al f s = Ok (s', e) /\ rinv strict f h s' /\ s_zbase s' = s_zbase s /\ s_zsize s' = s_zsize s /\
   ((e = None /\ (s_read s' = true \/ exists b, s_rawbase s' = Some b)) \/
    ((exists n, e = Some n) /\ (strict = true -> ~ deliverable f h))).
Proof.
  intros strict al f h s F H ST I. unfold str_load.
  destruct (s_rawbase s) as [b|] eqn:RB; cbn [isSome negb andb].
  { exists s, None. split; [reflexivity|]. split; [exact I|]. split; [reflexivity|]. split; [reflexivity|].
    left. split; [reflexivity|]. right. eauto. }
  destruct (s_read s) eqn:R; cbn [negb].
  { exists s, None. split; [reflexivity|]. split; [exact I|]. split; [reflexivity|]. split; [reflexivity|]. left. auto. }
  destruct (load_inv strict al f h s F H I R) as [(D & s1 & E & I1 & R1 & RR1 & Z1 & Z2)|(D & e & E)]; rewrite E.
  - exists s1, None. split; [reflexivity|]. split; [exact I1|]. split; [exact Z1|]. split; [exact Z2|]. left. auto.
  - exists s, (Some e). split; [reflexivity|]. split; [exact I|]. split; [reflexivity|]. split; [reflexivity|].
    right. split; [eauto|]. intros S. exact (D S (ST S)).
Qed.

Lemma strptr_inv : forall strict al aligned junk z f h s o, file_ok f -> hdr_ok h -> convertible f h -> z_safe z ->
  (strict = true -> al = true) -> rinv strict f h s -> 0 <= o ->
  exists s' r e, strptr al aligned junk z f s o = Ok (s', (r, e)) /\ rinv strict f h s' /\
    str_post strict f h o r e.
Proof.
  intros strict al aligned junk z f h s o F H CV ZS ST I Ho. unfold strptr. rewrite (ri_hdr _ _ _ _ I).
  change SHT_STRTAB with 3. destruct (sh_type h =? 3) eqn:T; cbn [negb].
  2:{ exists s, None, (Some ELF_E_INVALID_SECTION). split; [reflexivity|]. split; [exact I|].
      split; [discriminate|]. intros _ _. split; [eauto|]. intros; lia. }
  assert (T3 : sh_type h = 3) by lia.
  destruct (compressed h) eqn:C.
  - (* compressed *)
    assert (SS : exists s1 r, str_size al aligned junk z f s = Ok (s1, r) /\ rinv strict f h s1 /\
              ((exists e, r = inl e) \/ (exists zb, s_zbase s1 = Some zb /\ r = inr (zlen zb)))).
    { unfold str_size. rewrite (ri_hdr _ _ _ _ I), has_compressed, C. cbn [negb].
      destruct (s_zbase s) as [zb|] eqn:ZB.
      - exists s. eexists. split; [reflexivity|]. split; [exact I|]. right. exists zb. split; [exact ZB|].
        rewrite (proj1 (proj2 (ri_z _ _ _ _ I zb ZB))). reflexivity.
      - destruct (decompress_elf_inv strict al aligned junk z f h s F H CV ZS ST I) as (s1 & r & E & I1 & Z1 & Z2 & P).
        rewrite E. cbn [obind]. destruct r as [e|[[b sz] a]].
        + exists s1. eexists. split; [reflexivity|]. split; [exact I1|]. left. eauto.
        + destruct (P _ _ _ eq_refl) as (_ & L & CE & PA). eexists. eexists. split; [reflexivity|].
          split; [apply rinv_set_z; assumption|]. right. exists b. split; [reflexivity|]. rewrite L. reflexivity. }
    destruct SS as (s1 & r & E & I1 & [(e & ->)|(zb & ZB & ->)]); rewrite E; cbn [obind].
    { exists s1, None, (Some e). split; [reflexivity|]. split; [exact I1|]. split; [discriminate|].
      intros _ _. split; [eauto|]. congruence. }
    destruct (zlen zb <=? o) eqn:LE.
    { eexists s1, None, _. split; [reflexivity|]. split; [exact I1|]. split; [discriminate|].
      intros _ _. split; [eauto|]. congruence. }
    destruct (str_load_inv strict al f h s1 F H ST I1) as (s2 & e & E2 & I2 & Z1 & Z2 & [(-> & X)|((n & ->) & X)]);
      rewrite E2; cbn [obind].
    2:{ eexists s2, None, _. split; [reflexivity|]. split; [exact I2|]. split; [discriminate|].
        intros _ _. split; [eauto|]. congruence. }
    rewrite Z1, ZB. destruct (validate_ok zb o (zlen zb) ltac:(lia) eq_refl) as [[V W]|[V W]]; rewrite V; cbn [obind].
    + eexists s2, _, _. split; [reflexivity|]. split; [exact I2|]. split; [|discriminate].
      intros b p [= <- <-]. split; [reflexivity|]. split; [exact W|]. split; [exact T3|]. congruence.
    + eexists s2, None, _. split; [reflexivity|]. split; [exact I2|]. split; [discriminate|].
      intros _ _. split; [eauto|]. congruence.
  - (* plain *)
    unfold str_size. rewrite (ri_hdr _ _ _ _ I), has_compressed, C. cbn [negb obind].
    destruct (sh_size h <=? o) eqn:LE.
    { eexists s, None, _. split; [reflexivity|]. split; [exact I|]. split; [discriminate|].
      intros _ _. split; [eauto|]. intros _ _. right. left. lia. }
    assert (HD : has_data h = true) by (unfold has_data; lia).
    destruct (str_load_inv strict al f h s F H ST I) as (s2 & e & E2 & I2 & Z1 & Z2 & [(-> & X)|((n & ->) & X)]);
      rewrite E2; cbn [obind].
    2:{ eexists s2, None, _. split; [reflexivity|]. split; [exact I2|]. split; [discriminate|].
        intros _ S. split; [eauto|]. intros _ _. left. exact (X S). }
    destruct (s_zbase s2) as [zb|] eqn:ZB; [destruct (ri_z _ _ _ _ I2 zb ZB); congruence|].
    assert (RB : s_rawbase s2 = Some (section_bytes f h) /\ in_file f h).
    { destruct X as [X|(b & X)].
      - destruct (ri_read _ _ _ _ I2 X) as (_ & D & _ & B). split; [exact (B HD)|]. exact (has_data_in_file f h D HD).
      - destruct (ri_base _ _ _ _ I2 b X) as [-> ?]. auto. }
    destruct RB as [RB IN].
    assert (D : deliverable f h).
    { intros _. split; [|exact IN]. unfold whole_records. rewrite (strtab_content f h T3 C). apply Z.mod_1_r. }
    pose proof (section_bytes_len f h F H IN) as L.
    destruct (validate_ok (section_bytes f h) o (sh_size h) ltac:(lia) L) as [[V W]|[V W]].
    + destruct (ri_rear _ _ _ _ I2) as [RR|[RR [DO|[SF EF]]]].
      * rewrite RR, RB. cbn [isSome negb]. rewrite V. cbn [obind].
        eexists s2, _, _. split; [reflexivity|]. split; [exact I2|]. split; [|discriminate].
        intros b p [= <- <-]. split; [reflexivity|]. split; [exact W|]. split; [exact T3|]. intros _. split; [reflexivity|]. split; [lia|exact D].
      * rewrite RR, (ri_rest _ _ _ _ I2). cbn [isSome negb strptr_walk]. destruct DO as (B1 & B2 & B3 & B4 & B5).
        rewrite B1, HD, B3, B4, (strtab_host f h T3 C F H IN).
        assert (U : u64 (0 + sh_size h) = sh_size h).
        { destruct H as (_ & _ & _ & U & _). unfold is_u64 in U. unfold u64. apply Z.mod_small. lia. }
        rewrite U. change (u64 0) with 0. replace ((0 <=? o) && (o <? sh_size h))%bool with true by lia.
        assert (U2 : u64 (o - 0) = o).
        { destruct H as (_ & _ & _ & U2 & _). unfold is_u64 in U2. unfold u64. rewrite Z.sub_0_r. apply Z.mod_small. lia. }
        rewrite U2, V. cbn [obind].
        eexists s2, _, _. split; [reflexivity|]. split; [exact I2|]. split; [|discriminate].
        intros b p [= <- <-]. split; [reflexivity|]. split; [exact W|]. split; [exact T3|]. intros _. split; [reflexivity|]. split; [lia|exact D].
      * rewrite RR, (ri_rest _ _ _ _ I2), EF. cbn [isSome negb strptr_walk ed_off ed_size edat0].
        change (u64 0) with 0. change (u64 (0 + 0)) with 0. replace ((0 <=? o) && (o <? 0))%bool with false by lia.
        cbn [obind]. eexists s2, None, _. split; [reflexivity|]. split; [exact I2|]. split; [discriminate|]. congruence.
    + destruct (ri_rear _ _ _ _ I2) as [RR|[RR [DO|[SF EF]]]].
      * rewrite RR, RB. cbn [isSome negb]. rewrite V. cbn [obind].
        eexists s2, None, _. split; [reflexivity|]. split; [exact I2|]. split; [discriminate|].
        intros _ _. split; [eauto|]. auto.
      * rewrite RR, (ri_rest _ _ _ _ I2). cbn [isSome negb strptr_walk]. destruct DO as (B1 & B2 & B3 & B4 & B5).
        rewrite B1, HD, B3, B4, (strtab_host f h T3 C F H IN).
        assert (U : u64 (0 + sh_size h) = sh_size h).
        { destruct H as (_ & _ & _ & U & _). unfold is_u64 in U. unfold u64. apply Z.mod_small. lia. }
        rewrite U. change (u64 0) with 0. replace ((0 <=? o) && (o <? sh_size h))%bool with true by lia.
        assert (U2 : u64 (o - 0) = o).
        { destruct H as (_ & _ & _ & U2 & _). unfold is_u64 in U2. unfold u64. rewrite Z.sub_0_r. apply Z.mod_small. lia. }
        rewrite U2, V. cbn [obind].
        eexists s2, None, _. split; [reflexivity|]. split; [exact I2|]. split; [discriminate|].
        intros _ _. split; [eauto|]. auto.
      * rewrite RR, (ri_rest _ _ _ _ I2), EF. cbn [isSome negb strptr_walk ed_off ed_size edat0].
        change (u64 0) with 0. change (u64 (0 + 0)) with 0. replace ((0 <=? o) && (o <? 0))%bool with false by lia.
        cbn [obind]. eexists s2, None, _. split; [reflexivity|]. split; [exact I2|]. split; [discriminate|]. congruence.
Qed.

(* ------------------------------------------------------------------ *)
(* Opening. *)
Lemma open_sec_inv : forall strict f pre i h, file_ok f -> hdr_ok h ->
  exists s, open_sec f pre i h = Ok s /\ rinv strict f h s.
Proof.
  intros strict f pre i h F H. pose proof F as (A1 & A2 & A3 & A4 & A5 & A6).
  pose proof H as (_ & _ & B1 & B2 & _). unfold is_u64 in *. unfold open_sec.
  assert (G : forall base, (forall b, base = Some b -> b = section_bytes f h /\ in_file f h) ->
    rinv strict f h (Sec i h base edat0 false false edat0 [] None None 0 0)).
  { intros base Hb. constructor; cbn [s_hdr s_rest s_rawbase s_read s_raw s_rear s_first s_zbase s_zsize s_file edat0 ed_buf]; auto; discriminate. }
  destruct (pre && f_map f && (sh_offset h <? f_max f) && (sh_size h <=? f_max f - sh_offset h)) eqn:P.
  - apply andb_prop in P. destruct P as [P P2]. apply andb_prop in P. destruct P as [_ P3].
    unfold map_bytes. replace ((0 <=? f_start f + sh_offset h) && (f_start f + sh_offset h + sh_size h <=? zlen (f_img f)))%bool with true by lia.
    cbn [obind]. eexists. split; [reflexivity|]. apply G. intros b [= <-]. split; [reflexivity|]. unfold in_file. lia.
  - cbn [obind]. eexists. split; [reflexivity|]. apply G. discriminate.
Qed.

Definition weak (f : efile) (h : shdr) (op : rop) (ob : robs) : Prop :=
  match op, ob with
  | OStr o, ObStr b p => p = o /\ terminated b o /\ sh_type h = 3 /\
      (compressed h = false -> b = section_bytes f h /\ o < sh_size h /\ deliverable f h)
  | OStr o, ObNoStr _ => True
  | ORaw, ObData d => deliverable f h /\ raw_ok f h d
  | OGet, ObData d => deliverable f h /\ (data_ok f h d \/ d = edat0)
  | ORaw, ObNone e | OGet, ObNone e => exists n, e = Some n
  | _, _ => False
  end.

Lemma rstep_inv : forall strict z f h e op s, file_ok f -> hdr_ok h -> convertible f h -> z_safe z ->
  (strict = true -> e_al e = true) -> off_ok op -> rinv strict f h s ->
  exists s' ob, rstep z f e op s = Ok (s', ob) /\ rinv strict f h s' /\ weak f h op ob /\
    (strict = true -> good f h op ob).
Proof.
  intros strict z f h e op s F H CV ZS ST O I. destruct op as [| |o]; cbn [rstep off_ok] in *.
  - destruct (rawdata_inv strict (e_al e) f h s F H ST I) as (s' & r & E & I' & [(D & -> & RO)|(D & n & ->)]);
      rewrite E; cbn [obind]; eexists s', _; (split; [reflexivity|]); (split; [exact I'|]); cbn [weak good].
    + split; [auto|]. intros _. left. split; [exact D|]. eexists. split; [reflexivity|]. destruct RO as (? & ? & ? & ? & ?). auto.
    + split; [eauto|]. intros S. right. split; [exact (D S)|eauto].
  - destruct (getdata_inv strict (e_al e) (e_aligned e) (e_junk e) f h s F H CV ST I)
      as (s' & r & E & I' & [(D & -> & R & RR)|(D & n & ->)] & _ & _); rewrite E; cbn [obind].
    + unfold data_at. cbn [nth_error]. eexists s', _. split; [reflexivity|]. split; [exact I'|]. cbn [weak good].
      destruct (ri_rear _ _ _ _ I') as [X|[_ [DO|[SF EF]]]]; [congruence| |].
      * split; [auto|]. intros _. left. split; [exact D|]. eexists. split; [reflexivity|]. destruct DO as (? & ? & ? & ? & ?). auto.
      * split; [auto|]. congruence.
    + eexists s', _. split; [reflexivity|]. split; [exact I'|]. cbn [weak good]. split; [eauto|].
      intros S. right. split; [exact (D S)|eauto].
  - destruct (strptr_inv strict (e_al e) (e_aligned e) (e_junk e) z f h s o F H CV ZS ST I O) as (s' & r & er & E & I' & P1 & P2).
    rewrite E. cbn [obind]. eexists s', _. split; [reflexivity|]. split; [exact I'|]. destruct r as [[b p]|].
    + destruct (P1 b p eq_refl) as (-> & T & T3 & U). cbn [weak good]. split; [auto|]. intros _.
      replace (sh_type h =? 3) with true by lia. destruct (compressed h); cbn [negb andb].
      * left. eauto.
      * destruct (U eq_refl) as (-> & ? & ?). left. auto.
    + cbn [weak good]. split; [exact Logic.I|]. intros S. destruct (P2 eq_refl S) as [(n & ->) U].
      destruct (sh_type h =? 3) eqn:T; cbn [andb]; [|eauto]. destruct (compressed h); cbn [negb]; [eauto|].
      right. split; [|eauto]. apply U; [lia|reflexivity].
Qed.

Lemma rrun_inv : forall strict z f h, file_ok f -> hdr_ok h -> convertible f h -> z_safe z ->
  forall ops s, Forall (fun p => (strict = true -> e_al (fst p) = true) /\ off_ok (snd p)) ops -> rinv strict f h s ->
  exists s' obs, rrun z f ops s = Ok (s', obs) /\ rinv strict f h s' /\ Forall2 (fun p ob => weak f h (snd p) ob) ops obs /\
    (strict = true -> Forall2 (fun p ob => good f h (snd p) ob) ops obs).
Proof.
  intros strict z f h F H CV ZS. induction ops as [|[e op] ops IH]; intros s HA I.
  - exists s, []. split; [reflexivity|]. split; [exact I|]. split; constructor.
  - pose proof (Forall_inv HA) as [A1 A2]. cbn [fst snd] in *.
    destruct (rstep_inv strict z f h e op s F H CV ZS A1 A2 I) as (s1 & ob & E & I1 & W & G).
    destruct (IH s1 (Forall_inv_tail HA) I1) as (s2 & obs & E2 & I2 & W2 & G2).
    exists s2, (ob :: obs). cbn [rrun]. rewrite E. cbn [obind]. rewrite E2. cbn [obind].
    split; [reflexivity|]. split; [exact I2|]. split; [constructor; assumption|]. intros S. constructor; [exact (G S)|exact (G2 S)].
Qed.
