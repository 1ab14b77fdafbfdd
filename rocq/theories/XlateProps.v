(* C18-C21: byte-order conversion of section data. *)
From Verif Require Import Base ElfErr XlateModel XlateSpec XlateProof XlateApiProof
  XlateNoteProof XlateVerProof XlateGhProof.

(* ================================================================== *)
(* C18 *)

(* elf32_xlatetof, elf32_xlatetom, elf64_...: a whole number of records of a
   fixed-layout type is converted: for the host's own byte order the bytes are
   copied, otherwise every field has its bytes reversed.  Nothing outside the
   destination changes; the source may be anywhere (also the same buffer), only
   for structure types it must not start below a destination overlapping it. *)
Theorem C18_translation :
  forall tof c64 le ty ws m d s dsz len dty encode,
    spec_widths c64 ty = Some ws -> 0 <= len <= dsz -> len mod Z.of_nat (total ws) = 0 ->
    enc_ok encode ->
    (spec_simple c64 ty = true \/ native le encode = true \/ fwd d s len) ->
    exists m',
      xlate tof c64 le m (EData d dty dsz) (EData s ty len) encode = Ok (m', EData d ty len) /\
      rdm m' d (Z.to_nat len)
      = (if native le encode then rdm m s (Z.to_nat len)
         else swap_records ws (Z.to_nat (len / Z.of_nat (total ws))) (rdm m s (Z.to_nat len))) /\
      (forall x, ~ (d <= x < d + len) -> m' x = m x).
Proof. exact xlate_records. Qed.
Print Assumptions C18_translation.

(* A 32-bit symbol table entry, big-endian file on a little-endian host. *)
Example C18_translation_nonvacuous :
  spec_widths false 11 = Some [4; 4; 4; 1; 1; 2]%nat /\
  exists m', xlate false false true (wrm (fun _ => 0) 0 [0;0;0;1; 0;0;16;0; 0;0;0;8; 18; 0; 0;7])
     (EData 100 0 16) (EData 0 11 16) 2 = Ok (m', EData 100 11 16) /\
    rdm m' 100 16 = [1;0;0;0; 0;16;0;0; 8;0;0;0; 18; 0; 7;0].
Proof. split; [reflexivity|]. eexists. split; [vm_compute; reflexivity|]. vm_compute. reflexivity. Qed.

(* To the file representation and back, through any buffers. *)
Theorem C18_roundtrip :
  forall c64 le ty ws m s d e len dty ety encode,
    spec_widths c64 ty = Some ws -> 0 <= len -> len mod Z.of_nat (total ws) = 0 ->
    enc_ok encode -> fwd d s len -> fwd e d len ->
    exists m1 m2,
      xlate true c64 le m (EData d dty len) (EData s ty len) encode = Ok (m1, EData d ty len) /\
      xlate false c64 le m1 (EData e ety len) (EData d ty len) encode = Ok (m2, EData e ty len) /\
      rdm m2 e (Z.to_nat len) = rdm m s (Z.to_nat len).
Proof.
  intros c64 le ty ws m s d e len dty ety encode H Hl Hm He F1 F2.
  destruct (xlate_records true c64 le ty ws m d s len len dty encode H) as (m1 & X1 & R1 & _); [lia|auto..|].
  destruct (xlate_records false c64 le ty ws m1 e d len len ety encode H) as (m2 & X2 & R2 & _); [lia|auto..|].
  exists m1, m2. split; [exact X1|]. split; [exact X2|]. rewrite R2, R1.
  destruct (native le encode); [reflexivity|]. apply swap_records_invol. rewrite rdm_len.
  destruct (fsize_spec _ _ _ H) as [_ P].
  pose proof (Z.div_mod len (Z.of_nat (total ws)) ltac:(lia)) as D. rewrite Hm in D.
  pose proof (Z.div_pos len (Z.of_nat (total ws)) Hl ltac:(lia)). nia.
Qed.
Print Assumptions C18_roundtrip.
Example C18_roundtrip_nonvacuous :
  spec_widths true 9 = Some [4;4;8;8;8;8;4;4;8;8]%nat /\ 128 mod Z.of_nat (total [4;4;8;8;8;8;4;4;8;8]%nat) = 0
  /\ enc_ok 2 /\ fwd 0 0 128 /\ fwd 500 0 128.
Proof. unfold enc_ok, fwd. repeat split; try reflexivity; lia. Qed.

(* Wrong sizes and encodings are refused. *)
Theorem C18_rejects :
  forall tof c64 le m dst src encode r,
    fsize c64 (d_type src) = Some r ->
    (d_size dst < d_size src -> exists e, xlate tof c64 le m dst src encode = Err e) /\
    (~ enc_ok encode -> exists e, xlate tof c64 le m dst src encode = Err e) /\
    (d_type src <> ELF_T_NHDR -> d_type src <> ELF_T_NHDR8 -> d_size src mod r <> 0 ->
       xlate tof c64 le m dst src encode = Err ELF_E_INVALID_DATA).
Proof. exact xlate_rejects. Qed.
Print Assumptions C18_rejects.
Example C18_rejects_nonvacuous :
  xlate false true true (fun _ => 0) (EData 0 0 100) (EData 0 ELF_T_SYM 25) 2 = Err ELF_E_INVALID_DATA /\
  xlate false true true (fun _ => 0) (EData 0 0 23) (EData 0 ELF_T_SYM 24) 2 = Err ELF_E_DEST_SIZE /\
  xlate false true true (fun _ => 0) (EData 0 0 24) (EData 0 ELF_T_SYM 24) 3 = Err ELF_E_INVALID_ENCODING.
Proof. repeat split; vm_compute; reflexivity. Qed.

(* The record sizes themselves are the ones of the ELF specification. *)
Theorem C18_record_sizes :
  forall c64 ty ws, spec_widths c64 ty = Some ws -> fsize c64 ty = Some (Z.of_nat (total ws)).
Proof. intros c64 ty ws H. exact (proj1 (fsize_spec _ _ _ H)). Qed.
Print Assumptions C18_record_sizes.
Example C18_record_sizes_nonvacuous : fsize true 9 = Some 64 /\ fsize false 9 = Some 40.
Proof. split; reflexivity. Qed.

(* Compressed sections: only the compression header is converted, the payload is
   copied; converting twice gives the original. *)
Theorem C18_compression_header :
  forall c64 m d s len, 0 <= len ->
    (d = s \/ d + len <= s \/ s + len <= d) ->
    let m' := cvt_chdr c64 m d s len in
    rdm m' d (Z.to_nat len) = swap_chdr c64 (rdm m s (Z.to_nat len)) /\
    (forall x, ~ (d <= x < d + len) -> m' x = m x) /\
    (forall b, swap_chdr c64 (swap_chdr c64 b) = b).
Proof.
  intros c64 m d s len Hl Hd m'. destruct (cvt_chdr_ok c64 m d s len Hl Hd) as [A B].
  split; [exact A|]. split; [exact B|]. intros b. unfold swap_chdr.
  set (ws := chdr_widths c64). destruct (total ws <=? length b)%nat eqn:E.
  - assert (L : length (swap_widths ws (firstn (total ws) b)) = total ws) by (rewrite swap_widths_len, firstn_length; lia).
    rewrite app_length, L, skipn_length. replace (total ws <=? _)%nat with true by lia.
    rewrite firstn_exact, skipn_exact by exact L.
    rewrite swap_widths_invol by (rewrite firstn_length; lia). apply firstn_skipn.
  - rewrite E. reflexivity.
Qed.
Print Assumptions C18_compression_header.
Example C18_compression_header_nonvacuous :
  rdm (cvt_chdr false (wrm (fun _ => 0) 0 [1;0;0;0; 9;0;0;0; 8;0;0;0; 120; 156; 3; 4]) 0 0 16) 0 16
  = [0;0;0;1; 0;0;0;9; 0;0;0;8; 120; 156; 3; 4].
Proof. vm_compute. reflexivity. Qed.

(* Refuted for the move table: the record size used for the length check is 28 in
   both classes, the structures have 24 and 32 bytes.  So one record is refused, *)
Theorem C18_move_refuted :
  (forall tof le m dst s encode,
     xlate tof false le m dst (EData s ELF_T_MOVE 24) encode = Err ELF_E_INVALID_DATA /\
     xlate tof true le m dst (EData s ELF_T_MOVE 32) encode = Err ELF_E_INVALID_DATA) /\
  (* and seven 32-bit records, which pass, do not survive the round trip. *)
  exists m m1 m2,
    xlate true false true m (EData 1000 0 168) (EData 0 ELF_T_MOVE 168) 2 = Ok (m1, EData 1000 ELF_T_MOVE 168) /\
    xlate false false true m1 (EData 2000 0 168) (EData 1000 ELF_T_MOVE 168) 2 = Ok (m2, EData 2000 ELF_T_MOVE 168) /\
    rdm m2 2000 20 <> rdm m 0 20.
Proof.
  split; [intros []; intros; split; reflexivity|].
  exists (fun x => x mod 256). eexists. eexists.
  split; [reflexivity|]. split; [reflexivity|]. vm_compute. discriminate.
Qed.
Print Assumptions C18_move_refuted.

(* Refuted for overlapping buffers, which elf32_xlatetom.c:59-62 promises to
   handle: a structure type with the destination inside the source. *)
Theorem C18_overlap_refuted :
  exists m m', 
    xlate false false true m (EData 8 0 16) (EData 0 ELF_T_REL 16) 2 = Ok (m', EData 8 ELF_T_REL 16) /\
    rdm m' 8 16 <> swap_records [4; 4]%nat 2 (rdm m 0 16).
Proof.
  exists (fun x => x). eexists. split; [reflexivity|]. vm_compute. discriminate.
Qed.
Print Assumptions C18_overlap_refuted.

(* ================================================================== *)
(* C19 *)

(* A buffer consisting of complete notes is converted note by note. *)
Theorem C19_notes_converted :
  forall le enc h8 m d s len notes,
    disj d s len \/ (d = s /\ enc = false) -> 0 <= len < two32 ->
    Forall (note_ok (nal h8)) notes ->
    rdm m s (Z.to_nat len) = notes_bytes (if enc then le else negb le) notes ->
    exists m', cvt_note le enc h8 m d s len = Ok m' /\
      rdm m' d (Z.to_nat len) = notes_bytes (if enc then negb le else le) notes /\
      (forall x, ~ (d <= x < d + len) -> m' x = m x).
Proof. exact cvt_note_ok. Qed.
Print Assumptions C19_notes_converted.
Definition gnu_note := Note 4 5 3 [71;78;85;0; 1;2;3;4;5;0;0;0].
Example C19_notes_converted_nonvacuous :
  Forall (note_ok (nal false)) [gnu_note; gnu_note] /\
  notes_bytes false [gnu_note] = [0;0;0;4; 0;0;0;5; 0;0;0;3; 71;78;85;0; 1;2;3;4;5;0;0;0] /\
  disj 100 0 48.
Proof.
  assert (note_ok (nal false) gnu_note) by (unfold note_ok; repeat split; vm_compute; congruence).
  split; [auto|]. split; [reflexivity|]. unfold disj. lia.
Qed.

(* Arbitrary content, converted in place: always ends, inside the buffer. *)
Theorem C19_in_place_safe :
  forall le enc h8 m d len, 0 <= len ->
    exists m', cvt_note le enc h8 m d d len = Ok m' /\
      (forall x, ~ (d <= x < d + len) -> m' x = m x).
Proof.
  intros le enc h8 m d len Hl. unfold cvt_note.
  destruct (note_inplace_safe le enc h8 len d (S (Z.to_nat len)) m 0 len) as (m' & E & F); [lia..|].
  exists m'. split; [exact E|]. intros x Hx. apply F. lia.
Qed.
Print Assumptions C19_in_place_safe.
Example C19_in_place_safe_nonvacuous :
  exists m', cvt_note true false false (wrm (fun _ => 7) 0 [255;255;255;252; 0;0;0;0; 0;0;0;1]) 0 0 12 = Ok m'.
Proof. eexists. vm_compute. reflexivity. Qed.

(* Arbitrary content, copied: as long as no header wraps around to size 8. *)
Theorem C19_copy_safe_partial :
  forall le (enc : bool) h8 m d s len, 0 <= len -> disj d s len -> mem_ok m ->
    (forall o, ~ note_wraps (nal h8) (if enc then le else negb le) (rdm m s (Z.to_nat len)) o) ->
    exists m', cvt_note le enc h8 m d s len = Ok m' /\
      (forall x, ~ (d <= x < d + len) -> m' x = m x).
Proof.
  intros le enc h8 m d s len Hl Dj Hm Hw. unfold cvt_note.
  destruct (note_copy_safe le enc h8 len d s (S (Z.to_nat len)) m m 0 len) as [(m' & E & F)|(o & W)];
    [auto|auto|auto|lia..| |].
  - exists m'. split; [exact E|]. intros x Hx. apply F. lia.
  - destruct (Hw o W).
Qed.
Print Assumptions C19_copy_safe_partial.
Example C19_copy_safe_nonvacuous :
  forall o, ~ note_wraps 4 false [0;0;255;255; 0;0;0;0; 0;0;0;1] o.
Proof.
  intros o (H1 & H2 & H3). assert (o = 0) by (cbn in H2; lia). subst o. vm_compute in H3. discriminate.
Qed.

(* The missing part is false: a name size of 0xfffffffc makes the padded size of
   the note wrap around, and the payload copy runs far out of the buffer. *)
Theorem C19_overflow_refuted :
  exists b, bytes_ok b /\ zlen b = 12 /\
    forall m, rdm m 0 12 = b -> cvt_note true false false m 100 0 12 = UB.
Proof.
  exists [255;255;255;252; 0;0;0;0; 0;0;0;1]. split; [repeat constructor; unfold is_u8; lia|]. split; [reflexivity|].
  intros m H. cbn [rdm seq map] in H. injection H as H0 H1 H2 H3 H4 H5 H6 H7 H8 H9 H10 H11.
  cbn in H0, H1, H2, H3, H4, H5, H6, H7, H8, H9, H10, H11.
  unfold cvt_note. generalize (Z.to_nat 12). intros fuel. cbn [cvt_note_loop].
  set (m1 := cvt_rec fs_nhdr m (100 + 0) (0 + 0)).
  assert (R : rdm m1 100 12 = [252;255;255;255; 0;0;0;0; 1;0;0;0]).
  { destruct (cvt_rec_ok fs_nhdr m 100 0) as [R _]; [reflexivity|cbn; lia|].
    change (total (widths_of fs_nhdr)) with 12%nat in R. unfold m1. rewrite !Z.add_0_r. rewrite R.
    unfold rdm. cbn [seq map]. cbn. rewrite H0, H1, H2, H3, H4, H5, H6, H7, H8, H9, H10, H11. reflexivity. }
  assert (A : rd32 true m1 (100 + 0) = 4294967292).
  { unfold rd32. change (100 + 0) with 100. rewrite <- (firstn_rdm 4 m1 100 12) by lia. rewrite R. reflexivity. }
  assert (B : rd32 true m1 (100 + 0 + 4) = 0).
  { unfold rd32. pose proof (zsub_rdm m1 100 12 4 4 ltac:(lia) ltac:(lia) ltac:(lia)) as Q.
    rewrite R in Q. change (100 + 0 + 4) with (100 + 4). change (Z.to_nat 4) with 4%nat in Q. rewrite <- Q. reflexivity. }
  rewrite A, B. reflexivity.
Qed.
Print Assumptions C19_overflow_refuted.

(* Converting notes to the file's byte order in place reads the already swapped
   sizes, so the notes after the first are lost. *)
Theorem C19_in_place_encode_refuted :
  exists m m', rdm m 0 48 = notes_bytes true [gnu_note; gnu_note] /\
    cvt_note true true false m 0 0 48 = Ok m' /\
    rdm m' 0 48 <> notes_bytes false [gnu_note; gnu_note].
Proof.
  exists (wrm (fun _ => 0) 0 (notes_bytes true [gnu_note; gnu_note])). eexists.
  split; [vm_compute; reflexivity|]. split; [vm_compute; reflexivity|]. vm_compute. discriminate.
Qed.
Print Assumptions C19_in_place_encode_refuted.

(* ================================================================== *)
(* C20 *)

(* Arbitrary content: encoding, and decoding in place, end and stay inside. *)
Theorem C20_versions_safe_partial :
  forall k le enc m d s len, k = vk_def \/ k = vk_need ->
    0 <= len < 2 ^ 62 -> mem_ok m ->
    d = s \/ (enc = true /\ disj d s len) ->
    exists m', cvt_ver k le enc m d s len = Ok m' /\
      (forall x, ~ (d <= x < d + len) -> m' x = m x).
Proof.
  intros k le enc m d s len [->| ->].
  - apply cvt_ver_safe with (v := vl_def). apply kind_def.
  - apply cvt_ver_safe with (v := vl_need). apply kind_need.
Qed.
Print Assumptions C20_versions_safe_partial.
Example C20_versions_safe_nonvacuous :
  exists m', cvt_ver vk_def true false (wrm (fun _ => 0) 0 [0;1;0;0;0;1;0;1;0;0;0;0;0;0;0;20;0;0;0;3]) 0 0 20 = Ok m'.
Proof. eexists. vm_compute. reflexivity. Qed.

Lemma chain_bounds : forall v le b defs off, def_chain v le b off defs ->
  forall r, In r (chain_records v defs) -> 0 <= fst r /\ fst r + Z.of_nat (total (snd r)) <= zlen b.
Proof.
  intros v le b.
  assert (A : forall auxs ao, aux_chain v le b ao auxs ->
    forall o, In o auxs -> 0 <= o /\ o + Z.of_nat (total (vl_aws v)) <= zlen b).
  { induction auxs as [|a auxs IH]; intros ao H o Ho; [destruct Ho|]. cbn [aux_chain] in H.
    destruct H as (-> & H1 & H2 & H3). destruct Ho as [<-|Ho]; [auto|].
    destruct auxs as [|a2 auxs]; [destruct Ho|]. destruct H3 as [_ H3]. exact (IH _ H3 o Ho). }
  induction defs as [|[o auxs] defs IH]; intros off H r Hr; [destruct Hr|].
  cbn [def_chain] in H. destruct H as (-> & H1 & H2 & H3 & H4).
  unfold chain_records in Hr. cbn [flat_map] in Hr. apply in_app_iff in Hr as [Hr|Hr].
  - cbn [fst snd] in Hr. destruct Hr as [<-|Hr]; [auto|]. apply in_map_iff in Hr as (ao & <- & Ho).
    cbn [fst snd]. exact (A _ _ H3 ao Ho).
  - destruct defs as [|d2 defs]; [destruct Hr|]. destruct H4 as [_ H4]. exact (IH _ H4 r Hr).
Qed.

(* A well-formed section (chains inside the data, records not overlapping), into
   another buffer or in place, in both directions: exactly the records are
   swapped.  b is the image in host order, f the one in file order. *)
Theorem C20_versions_converted :
  forall k v le (enc : bool) m d s b f defs,
    (k, v) = (vk_def, vl_def) \/ (k, v) = (vk_need, vl_need) ->
    d = s \/ disj d s (zlen b) -> zlen b < 2 ^ 62 -> bytes_ok b ->
    def_chain v le b 0 defs -> recs_disjoint (chain_records v defs) ->
    records_swapped (chain_records v defs) b f ->
    rdm m s (length b) = (if enc then b else f) ->
    exists m', cvt_ver k le enc m d s (zlen b) = Ok m' /\
      rdm m' d (length b) = (if enc then f else b) /\
      (forall x, ~ (d <= x < d + zlen b) -> m' x = m x).
Proof.
  intros k v le enc m d s b f defs Hk Hd Hl Hb Hc Ho Hs Hr.
  assert (K : kind_ok k v) by (destruct Hk as [Hk|Hk]; injection Hk as -> ->; [apply kind_def|apply kind_need]).
  assert (EN : length b = Z.to_nat (zlen b)) by (unfold zlen; lia). rewrite EN in *.
  pose proof (zlen_nonneg _ b).
  apply (cvt_ver_chain k v le enc m d s (zlen b) b f defs); auto.
  exact (chain_bounds v le b defs 0 Hc).
Qed.
Print Assumptions C20_versions_converted.

Definition ver_native : bytes :=     (* one Verdef with one Verdaux, little-endian *)
  [1;0; 1;0; 1;0; 1;0; 7;0;0;0; 20;0;0;0; 0;0;0;0;  5;0;0;0; 0;0;0;0].
Definition ver_file : bytes :=
  [0;1; 0;1; 0;1; 0;1; 0;0;0;7; 0;0;0;20; 0;0;0;0;  0;0;0;5; 0;0;0;0].
Example C20_versions_converted_nonvacuous :
  def_chain vl_def true ver_native 0 [(0, [20])] /\
  recs_disjoint (chain_records vl_def [(0, [20])]) /\
  records_swapped (chain_records vl_def [(0, [20])]) ver_native ver_file.
Proof.
  split; [cbn [def_chain aux_chain]; repeat split; try (vm_compute; congruence)|].
  split.
  - unfold recs_disjoint, chain_records. cbn [flat_map map app fst snd].
    constructor; [constructor; [|constructor]|constructor; [constructor|constructor]].
    unfold in_rec. cbn. lia.
  - split; [reflexivity|]. split.
    + unfold chain_records. cbn [flat_map map app fst snd].
      intros r [<-|[<-|[]]]; vm_compute; reflexivity.
    + intros x H. unfold chain_records in H. cbn [flat_map map app fst snd] in H.
      assert (~ (0 <= x < 28)) as N.
      { intros B. destruct (Z_lt_le_dec x 20).
        - apply (H (0, vl_ws vl_def)); [left; reflexivity|]. unfold in_rec. cbn. lia.
        - apply (H (20, vl_aws vl_def)); [right; left; reflexivity|]. unfold in_rec. cbn. lia. }
      unfold znth. change (zlen ver_file) with 28. change (zlen ver_native) with 28.
      replace ((0 <=? x) && (x <? 28)) with false by lia. reflexivity.
Qed.

(* To the file representation and back. *)
Theorem C20_versions_roundtrip :
  forall k v le m s d e b f defs,
    (k, v) = (vk_def, vl_def) \/ (k, v) = (vk_need, vl_need) ->
    d = s \/ disj d s (zlen b) -> e = d \/ disj e d (zlen b) -> zlen b < 2 ^ 62 -> bytes_ok b ->
    def_chain v le b 0 defs -> recs_disjoint (chain_records v defs) ->
    records_swapped (chain_records v defs) b f ->
    rdm m s (length b) = b ->
    exists m1 m2, cvt_ver k le true m d s (zlen b) = Ok m1 /\
      cvt_ver k le false m1 e d (zlen b) = Ok m2 /\ rdm m2 e (length b) = b.
Proof.
  intros k v le m s d e b f defs Hk Hd He Hl Hb Hc Ho Hs Hr.
  destruct (C20_versions_converted k v le true m d s b f defs Hk Hd Hl Hb Hc Ho Hs Hr) as (m1 & E1 & R1 & _).
  destruct (C20_versions_converted k v le false m1 e d b f defs Hk He Hl Hb Hc Ho Hs R1) as (m2 & E2 & R2 & _).
  exists m1, m2. auto.
Qed.
Print Assumptions C20_versions_roundtrip.
Example C20_versions_roundtrip_nonvacuous : disj 100 0 (zlen ver_native) /\ bytes_ok ver_native.
Proof. split; [unfold disj; cbn; lia|]. repeat constructor; unfold is_u8; lia. Qed.

(* The remaining case is false: decoding into another buffer never ends on some
   contents.  The auxiliary record overlaps the definition, so the converted
   definition's next field becomes 0 while the source's is not. *)
Definition ver_loop : bytes :=
  [0;1; 0;0; 0;1; 0;1; 0;0;0;0; 0;0;0;13; 9;0;0;0; 0;0;0;0].
(* A chain which goes back to itself: the translation does not end. *)
Theorem C20_versions_terminate_refuted :
  bytes_ok ver_loop /\ zlen ver_loop = 24 /\
  forall m, rdm m 0 24 = ver_loop -> forall fuel, cvt_ver_fuel fuel vk_def true false m 100 0 24 = Fuel.
Proof.
  split; [repeat constructor; unfold is_u8; lia|]. split; [reflexivity|].
  intros m H fuel. unfold cvt_ver_fuel. change (24 =? 0) with false. cbn iota.
  assert (H0 : rdm (memmove m 100 0 24) 0 24 = ver_loop).
  { destruct (memmove_ok m 100 0 24) as [_ F]; [lia|]. rewrite <- H. apply rdm_ext. intros x Hx. apply F. lia. }
  revert H0. generalize (memmove m 100 0 24). clear m H.
  induction fuel as [|fuel IH]; intros m H; [reflexivity|]. cbn [ver_defs].
  change ((24 <? 0) || (24 - 0 <? vk_sz vk_def)) with false. cbn iota.
  change (inside 24 0 (vk_sz vk_def)) with true. unfold chk at 1.
  destruct (cvt_rec_ok (vk_fs vk_def) m 100 0) as [R1 F1]; [reflexivity|cbn; lia|].
  change (100 + 0) with 100. change (0 + 0) with 0. set (m1 := cvt_rec (vk_fs vk_def) m 100 0) in *.
  change (total (widths_of (vk_fs vk_def))) with 20%nat in *.
  assert (S1 : rdm m 0 20 = firstn 20 ver_loop) by (rewrite <- H, firstn_rdm by lia; reflexivity).
  rewrite S1 in R1.
  assert (A : rd32 true m1 (100 + vk_aux vk_def) = 13).
  { unfold rd32. pose proof (zsub_rdm m1 100 20 12 4 ltac:(lia) ltac:(lia) ltac:(lia)) as Q. rewrite R1 in Q.
    change (Z.to_nat 4) with 4%nat in Q. change (vk_aux vk_def) with 12. rewrite <- Q. reflexivity. }
  rewrite A. change (u64 (0 + 13)) with 13. generalize (Z.to_nat 24). intros fa. cbn [ver_aux].
  change ((24 <? 13) || (24 - 13 <? vk_asz vk_def)) with false. cbn iota.
  change (inside 24 13 (vk_asz vk_def)) with true. unfold chk at 1.
  destruct (cvt_rec_ok (vk_afs vk_def) m1 (100 + 13) (0 + 13)) as [R2 F2]; [reflexivity|cbn; lia|].
  change (total (widths_of (vk_afs vk_def))) with 8%nat in *.
  change (100 + 13) with 113 in *. change (0 + 13) with 13 in *.
  set (m2 := cvt_rec (vk_afs vk_def) m1 113 13) in *.
  assert (H1 : rdm m1 0 24 = ver_loop) by (rewrite <- H; apply rdm_ext; intros x Hx; apply F1; lia).
  assert (H2 : rdm m2 0 24 = ver_loop) by (rewrite <- H1; apply rdm_ext; intros x Hx; apply F2; lia).
  assert (S2 : rdm m1 13 8 = firstn 8 (skipn 13 ver_loop)).
  { rewrite <- H1, skipn_rdm, firstn_rdm by lia. reflexivity. }
  rewrite S2 in R2.
  assert (RD : forall o, 0 <= o -> o + 4 <= 24 -> rd32 true m2 o = host true (zsub ver_loop o 4)).
  { intros o O1 O2. unfold rd32. rewrite <- H2. rewrite zsub_rdm by lia. reflexivity. }
  rewrite (RD (13 + vk_anext vk_def)) by (cbn; lia).
  change (host true (zsub ver_loop (13 + vk_anext vk_def) 4) =? 0) with true. cbn iota. cbn [obind].
  rewrite (RD (0 + vk_next vk_def)) by (cbn; lia).
  change (host true (zsub ver_loop (0 + vk_next vk_def) 4) =? 0) with false. cbn iota.
  assert (B : rd32 true m2 (100 + vk_next vk_def) = 0).
  { unfold rd32. pose proof (zsub_rdm m2 113 8 3 4 ltac:(lia) ltac:(lia) ltac:(lia)) as Q. rewrite R2 in Q.
    change (Z.to_nat 4) with 4%nat in Q. change (100 + vk_next vk_def) with (113 + 3). rewrite <- Q. reflexivity. }
  rewrite B. change (u64 (0 + 0)) with 0. apply IH. exact H2.
Qed.
Print Assumptions C20_versions_terminate_refuted.

(* ================================================================== *)
(* C21 *)

(* Any content: always ends inside the buffer. *)
Theorem C21_gnuhash_safe :
  forall le enc m d s len, 0 <= len -> mem_ok m ->
    exists m', cvt_gnuhash le enc m d s len = Ok m' /\
      (forall x, ~ (d <= x < d + len) -> m' x = m x).
Proof. exact cvt_gnuhash_safe. Qed.
Print Assumptions C21_gnuhash_safe.
Example C21_gnuhash_safe_nonvacuous :
  exists m', cvt_gnuhash true false (fun _ => 255) 0 0 21 = Ok m'.
Proof. eexists. vm_compute. reflexivity. Qed.

(* A complete section b (host order): four words, nb 64-bit words, nw words. *)
Theorem C21_gnuhash_converted :
  forall le (enc : bool) m d s len b nb nw,
    disj d s len \/ (d = s /\ enc = false) -> gnuhash_ok le b nb nw -> len = zlen b ->
    rdm m s (Z.to_nat len) = (if enc then b else swap_widths (gnuhash_widths nb nw) b) ->
    exists m', cvt_gnuhash le enc m d s len = Ok m' /\
      rdm m' d (Z.to_nat len) = (if enc then swap_widths (gnuhash_widths nb nw) b else b) /\
      (forall x, ~ (d <= x < d + len) -> m' x = m x).
Proof. exact cvt_gnuhash_ok. Qed.
Print Assumptions C21_gnuhash_converted.

Definition gh_native : bytes :=
  [1;0;0;0; 2;0;0;0; 1;0;0;0; 6;0;0;0;  1;2;3;4;5;6;7;8;  2;0;0;0; 171;205;239;1].
Example C21_gnuhash_converted_nonvacuous :
  gnuhash_ok true gh_native 1 2 /\ disj 100 0 (zlen gh_native) /\
  swap_widths (gnuhash_widths 1 2) gh_native
  = [0;0;0;1; 0;0;0;2; 0;0;0;1; 0;0;0;6;  8;7;6;5;4;3;2;1;  0;0;0;2; 1;239;205;171].
Proof. repeat split; try reflexivity. unfold disj. cbn. lia. Qed.

(* There through another buffer, and back into any third one or in place. *)
Theorem C21_gnuhash_roundtrip_partial :
  forall le m s d e len b nb nw,
    disj d s len -> e = d \/ disj e d len -> gnuhash_ok le b nb nw -> len = zlen b ->
    rdm m s (Z.to_nat len) = b ->
    exists m1 m2, cvt_gnuhash le true m d s len = Ok m1 /\ cvt_gnuhash le false m1 e d len = Ok m2 /\
      rdm m2 e (Z.to_nat len) = b.
Proof.
  intros le m s d e len b nb nw Hd He Hb Hl Hs.
  destruct (cvt_gnuhash_ok le true m d s len b nb nw) as (m1 & E1 & R1 & _); auto.
  destruct (cvt_gnuhash_ok le false m1 e d len b nb nw) as (m2 & E2 & R2 & _); auto; [tauto|].
  eauto.
Qed.
Print Assumptions C21_gnuhash_roundtrip_partial.
(* decode (encode b), encoding from buffer 0 to d, decoding from d to e *)
Definition gh_there_and_back (m : mem) (d e : Z) (len : Z) : option bytes :=
  match cvt_gnuhash true true m d 0 len with
  | Ok m1 => match cvt_gnuhash true false m1 e d len with
             | Ok m2 => Some (rdm m2 e (Z.to_nat len)) | _ => None end
  | _ => None
  end.
Example C21_gnuhash_roundtrip_nonvacuous :
  gh_there_and_back (wrm (fun _ => 0) 0 gh_native) 100 100 32 = Some gh_native.
Proof. vm_compute. reflexivity. Qed.

(* Missing: to the file's byte order in place.  It is false, the code reads the
   number of bloom words after having swapped it: *)
Theorem C21_gnuhash_in_place_refuted :
  gnuhash_ok true gh_native 1 2 /\
  exists m b, rdm m 0 32 = gh_native /\
    gh_there_and_back m 0 0 32 = Some b /\ b <> gh_native.
Proof.
  split; [split; reflexivity|].
  exists (wrm (fun _ => 0) 0 gh_native), [1;0;0;0; 2;0;0;0; 1;0;0;0; 6;0;0;0;  1;2;3;4;5;6;7;8;  171;205;239;1; 2;0;0;0].
  split; [vm_compute; reflexivity|]. split; [vm_compute; reflexivity|]. discriminate.
Qed.
Print Assumptions C21_gnuhash_in_place_refuted.

(* Nor is the last half bloom word of a truncated section copied. *)
Theorem C21_gnuhash_truncated_refuted :
  exists m m1, cvt_gnuhash true true m 100 0 20 = Ok m1 /\
    rdm m 0 20 = firstn 20 gh_native /\ rdm m1 116 4 = rdm m 116 4 /\ rdm m1 116 4 <> rdm m 16 4
    /\ rdm m1 116 4 <> rev (rdm m 16 4).
Proof.
  exists (wrm (fun _ => 0) 0 gh_native). eexists. split; [reflexivity|].
  split; [vm_compute; reflexivity|]. split; [vm_compute; reflexivity|].
  split; vm_compute; discriminate.
Qed.
Print Assumptions C21_gnuhash_truncated_refuted.
