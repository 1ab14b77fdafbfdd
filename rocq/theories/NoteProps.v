(* C22: iterating over notes with gelf_getnote. *)
From Verif Require Import Base ElfErr XlateModel XlateSpec XlateProof XlateNoteProof XlateVerProof NoteModel.

(* ------------------------------------------------------------------ *)
(* Specification.  A note as it stands in a file, in host byte order: sizes and type,
   the name padded so that the descriptor is aligned, the padded descriptor. *)
Record note := Note { no_name : bytes; no_desc : bytes; no_type : Z }.
Definition word (le : bool) (x : Z) : bytes := if le then le_bytes 4 x else be_bytes 4 x.
Definition padding (a k : Z) : bytes := repeat 0 (Z.to_nat ((- k) mod a)).
Definition note_bytes (le : bool) (a : Z) (n : note) : bytes :=
  word le (zlen (no_name n)) ++ word le (zlen (no_desc n)) ++ word le (no_type n)
  ++ no_name n ++ padding a (12 + zlen (no_name n))
  ++ no_desc n ++ padding a (zlen (no_desc n)).
Definition alignment (ty : Z) : Z := if ty =? ELF_T_NHDR8 then 8 else 4.
Definition note_type (ty : Z) : Prop := ty = ELF_T_NHDR \/ ty = ELF_T_NHDR8.

(* ------------------------------------------------------------------ *)
Lemma rd32_u32 : forall le m a, mem_ok m -> 0 <= rd32 le m a < two32.
Proof.
  intros le m a M. unfold rd32, host. pose proof (rdm_ok m a 4 M) as B.
  change two32 with (256 ^ Z.of_nat 4). rewrite <- (rdm_len m a 4). unfold be_value.
  destruct le; [apply le_value_bound, B|]. rewrite <- rev_length.
  change (Z.of_nat (length (rev (rdm m a 4)))) with (zlen (rev (rdm m a 4))). apply le_value_bound. apply Forall_rev, B.
Qed.

Lemma align32_eq : forall h8 n, 0 <= n < two32 -> NOTE_ALIGN32 h8 n = align_up (nal h8) n mod two32.
Proof.
  intros h8 n H. unfold NOTE_ALIGN32, nal, align_up, u32. destruct h8.
  - change (two32 - 8) with (Z.ones 29 * 2 ^ 3). rewrite land_hi by lia. change (2 ^ 3) with 8. change (2 ^ 29) with 536870912. lia.
  - change (two32 - 4) with (Z.ones 30 * 2 ^ 2). rewrite land_hi by lia. change (2 ^ 2) with 4. change (2 ^ 30) with 1073741824. lia.
Qed.
Lemma alignment_nal : forall ty, alignment ty = nal (ty =? ELF_T_NHDR8).
Proof. intros ty. unfold alignment, nal. reflexivity. Qed.

(* What one call reports, for data below 4 GiB. *)
Definition note_at (le : bool) (a : Z) (m : mem) (size off : Z) (r : getnote_out) : Prop :=
  exists h name desc, gn_result r = Some h /\ gn_name r = Some name /\ gn_desc r = Some desc /\
    h = Nhdr (rd32 le m off) (rd32 le m (off + 4)) (rd32 le m (off + 8)) /\
    name = off + 12 /\ desc mod a = 0 /\
    name + nh_namesz h <= desc < name + nh_namesz h + a /\
    desc + nh_descsz h <= gn_ret r < desc + nh_descsz h + a /\
    off < gn_ret r <= size.

Lemma getnote_cases : forall le ty m size off, note_type ty -> mem_ok m -> 0 <= size < two63 -> is_u64 off ->
  exists r, gelf_getnote le (Some ty) m size off = Ok r /\
   (gn_ret r = 0 \/ (0 <= gn_ret r <= size /\ off + 12 <= size /\ gn_name r = Some (off + 12) /\ gn_errno r = None /\
     gn_result r = Some (Nhdr (rd32 le m off) (rd32 le m (off + 4)) (rd32 le m (off + 8))) /\
     off + 12 + rd32 le m off <= size /\
     exists desc, gn_desc r = Some desc /\ desc = NOTE_ALIGN (ty =? ELF_T_NHDR8) (off + 12 + rd32 le m off) /\
       0 <= NOTE_ALIGN32 (ty =? ELF_T_NHDR8) (rd32 le m (off + 4)) /\
       gn_ret r = desc + NOTE_ALIGN32 (ty =? ELF_T_NHDR8) (rd32 le m (off + 4)) /\
       (NOTE_ALIGN32 (ty =? ELF_T_NHDR8) (rd32 le m (off + 4)) = 0 -> rd32 le m (off + 4) = 0))).
Proof.
  intros le ty m size off T M S O. unfold is_u64 in *. unfold gelf_getnote.
  replace (negb (ty =? ELF_T_NHDR) && negb (ty =? ELF_T_NHDR8)) with false by (destruct T as [-> | ->]; reflexivity).
  destruct ((size <? off) || (size - off <? 12)) eqn:E1; [eexists; split; [reflexivity|left; reflexivity]|].
  cbv zeta. replace (u64 (off + 12)) with (off + 12) by (unfold u64; rewrite Z.mod_small; lia).
  replace (size <? off + 12) with false by lia.
  unfold chk, inside. replace ((0 <=? off) && (0 <=? 4) && (off + 4 <=? size)) with true by lia.
  pose proof (rd32_u32 le m off M) as N.
  replace (u64 (off + 12 + rd32 le m off)) with (off + 12 + rd32 le m off) by (unfold u64; rewrite Z.mod_small; lia).
  set (h8 := ty =? ELF_T_NHDR8).
  pose proof (rd32_u32 le m (off + 4) M) as D.
  assert (AR : 0 <= NOTE_ALIGN32 h8 (rd32 le m (off + 4)) < two32).
  { rewrite align32_eq by lia. apply Z.mod_pos_bound. lia. }
  destruct (size <? off + 12 + rd32 le m off) eqn:E2; [eexists; split; [reflexivity|left; reflexivity]|].
  replace ((0 <=? off + 4) && (0 <=? 4) && (off + 4 + 4 <=? size)) with true by lia.
  pose proof (note_align_range h8 (off + 12 + rd32 le m off)) as [NR _].
  set (o2 := NOTE_ALIGN h8 (off + 12 + rd32 le m off)) in *.
  set (ds := NOTE_ALIGN32 h8 (rd32 le m (off + 4))) in *.
  destruct ((size <? o2) || (size - o2 <? ds) || ((ds =? 0) && negb (rd32 le m (off + 4) =? 0))) eqn:E3; [eexists; split; [reflexivity|left; reflexivity]|].
  replace ((0 <=? off + 8) && (0 <=? 4) && (off + 8 + 4 <=? size)) with true by lia.
  replace (u64 (o2 + ds)) with (o2 + ds) by (unfold u64; rewrite Z.mod_small; lia).
  eexists. split; [reflexivity|right]. cbn [gn_ret gn_name gn_errno gn_result gn_desc].
  split; [lia|]. split; [lia|]. split; [reflexivity|]. split; [reflexivity|]. split; [reflexivity|]. split; [lia|].
  exists o2. split; [reflexivity|]. split; [reflexivity|]. split; [lia|]. split; [reflexivity|]. lia.
Qed.

(* A call never reads outside the data, whatever it contains and whatever the
   offset, for data of any size. *)
Theorem C22_getnote_safe : forall le ty m size off, mem_ok m -> 0 <= size < two63 -> is_u64 off ->
  exists r, gelf_getnote le ty m size off = Ok r /\ 0 <= gn_ret r <= size.
Proof.
  intros le [ty|] m size off M S O; [|eexists; split; [reflexivity|cbn; lia]].
  destruct (Z.eq_dec ty ELF_T_NHDR) as [T|T]; [|destruct (Z.eq_dec ty ELF_T_NHDR8) as [T'|T']].
  - destruct (getnote_cases le ty m size off (or_introl T) M S O) as (r & E & [R|(X & _)]); exists r; (split; [exact E|lia]).
  - destruct (getnote_cases le ty m size off (or_intror T') M S O) as (r & E & [R|(X & _)]); exists r; (split; [exact E|lia]).
  - unfold gelf_getnote. replace (negb (ty =? ELF_T_NHDR) && negb (ty =? ELF_T_NHDR8)) with true by lia.
    eexists. split; [reflexivity|]. cbn [gn_ret]. lia.
Qed.
Print Assumptions C22_getnote_safe.
Example C22_getnote_safe_nonvacuous :
  let b := [4; 0; 0; 0; 255; 255; 255; 255; 1; 0; 0; 0; 71; 78; 85; 0] in
  match gelf_getnote true (Some ELF_T_NHDR) (bmem b) (zlen b) 0 with Ok r => Some (gn_ret r, gn_name r) | _ => None end
  = Some (0, Some 12).
Proof. vm_compute. reflexivity. Qed.

(* For data of less than 4 GiB (8 bytes less): a non-zero result lies behind the
   offset passed and inside the data; the header reported is the one at the offset,
   the name follows it, the descriptor follows the name at the next aligned offset,
   and the result is the end of the padded descriptor.
   Missing for the whole claim: larger data, see C22_progress_refuted. *)
Theorem C22_progress_partial : forall le ty m size off r, note_type ty -> mem_ok m ->
  0 <= size <= two32 - 8 -> is_u64 off ->
  gelf_getnote le (Some ty) m size off = Ok r -> gn_ret r <> 0 ->
  note_at le (alignment ty) m size off r.
Proof.
  intros le ty m size off r T M S O E NZ. destruct (getnote_cases le ty m size off T M) as (r' & E' & [Z|C]); [lia|exact O| |].
  { rewrite E in E'. inversion E'; subst. contradiction. }
  rewrite E in E'. assert (r' = r) by congruence. subst r'. clear E E'.
  destruct C as (R & O12 & NM & _ & RS & O2 & desc & DS & DE & D0 & RE & DZ).
  unfold is_u64 in O.
  pose proof (rd32_u32 le m off M) as N. pose proof (rd32_u32 le m (off + 4) M) as D.
  rewrite align32_eq in * by lia. rewrite note_align_eq in DE by lia.
  exists (Nhdr (rd32 le m off) (rd32 le m (off + 4)) (rd32 le m (off + 8))), (off + 12), desc.
  rewrite alignment_nal. cbn [nh_namesz nh_descsz].
  split; [exact RS|]. split; [exact NM|]. split; [exact DS|]. split; [reflexivity|]. split; [reflexivity|].
  set (w := rd32 le m off) in *. set (v := rd32 le m (off + 4)) in *.
  unfold nal, align_up in *. destruct (ty =? ELF_T_NHDR8); lia.
Qed.
Print Assumptions C22_progress_partial.
Definition ex_notes : bytes :=
  note_bytes true 4 (Note [71; 78; 85; 0] [1; 2; 3; 4; 5] 3) ++ note_bytes true 4 (Note [65; 0] [] 1).
Example C22_progress_nonvacuous :
  (match gelf_getnote true (Some ELF_T_NHDR) (bmem ex_notes) (zlen ex_notes) 0 with Ok r => Some (gn_ret r, gn_name r, gn_desc r, gn_result r) | _ => None end)
  = Some (24, Some 12, Some 16, Some (Nhdr 4 5 3)).
Proof. vm_compute. reflexivity. Qed.

(* Iterating from any offset ends after at most size/12 notes. *)
Theorem C22_iteration_terminates_partial : forall le ty m size, note_type ty -> mem_ok m -> 0 <= size <= two32 - 8 ->
  forall fuel, size / 12 + 1 < Z.of_nat fuel ->
  exists l, iterate fuel le ty m size 0 = Ok l /\ zlen l <= size / 12.
Proof.
  intros le ty m size T M S.
  assert (G : forall fuel off, 0 <= off <= size -> (size - off) / 12 + 1 < Z.of_nat fuel ->
    exists l, iterate fuel le ty m size off = Ok l /\ zlen l <= (size - off) / 12).
  { induction fuel as [|fuel IH]; intros off O F; [lia|]. cbn [iterate].
    destruct (getnote_cases le ty m size off T M) as (r & E & C); [lia|unfold is_u64; lia|]. rewrite E. cbn [obind].
    destruct (gn_ret r =? 0) eqn:R.
    { exists []. split; [reflexivity|]. rewrite zlen_nil. lia. }
    destruct (C22_progress_partial le ty m size off r T M S) as (h & nm & ds & -> & -> & -> & HH & HN & _ & HD & HR & HS);
      [unfold is_u64; lia|exact E|lia|].
    assert (0 <= nh_namesz h /\ 0 <= nh_descsz h) as [H1 H2].
    { subst h. cbn [nh_namesz nh_descsz]. pose proof (rd32_u32 le m off M). pose proof (rd32_u32 le m (off + 4) M). lia. }
    destruct (IH (gn_ret r)) as (l & -> & L); [lia|lia|]. cbn [obind]. eexists. split; [reflexivity|].
    rewrite zlen_cons. lia. }
  intros fuel F. destruct (G fuel 0) as (l & E & L); [lia|rewrite Z.sub_0_r; lia|]. exists l. rewrite Z.sub_0_r in L. auto.
Qed.
Print Assumptions C22_iteration_terminates_partial.
Example C22_iteration_terminates_nonvacuous :
  match iterate 9 true ELF_T_NHDR (bmem ex_notes) (zlen ex_notes) 0 with Ok l => Some (map (fun x => snd x) l) | _ => None end = Some [16; 40].
Proof. vm_compute. reflexivity. Qed.

(* ------------------------------------------------------------------ *)
(* Every note is found. *)
Lemma zlen_word : forall le x, zlen (word le x) = 4.
Proof. intros [] x; unfold word, zlen; rewrite ?le_bytes_length, ?be_bytes_length; reflexivity. Qed.
Lemma rd32_at : forall le p x q, is_u32 x -> rd32 le (bmem (p ++ word le x ++ q)) (zlen p) = x.
Proof.
  intros le p x q U. unfold rd32. rewrite rdm_bmem.
  - replace (Z.of_nat 4) with (zlen (word le x)) by apply zlen_word. rewrite zsub_app.
    exact (host_w32 le x U).
  - apply zlen_nonneg.
  - rewrite !zlen_app, zlen_word. pose proof (zlen_nonneg _ q). lia.
Qed.
Lemma zlen_padding : forall a k, 0 < a -> zlen (padding a k) = (- k) mod a.
Proof. intros a k A. unfold padding, zlen. rewrite repeat_length. pose proof (Z.mod_pos_bound (- k) a A). lia. Qed.
Lemma pad_up : forall a k, a = 4 \/ a = 8 -> k + (- k) mod a = align_up a k.
Proof. intros a k [-> | ->]; unfold align_up; lia. Qed.
Lemma note_len : forall le a n, a = 4 \/ a = 8 ->
  zlen (note_bytes le a n) = align_up a (12 + zlen (no_name n)) + align_up a (zlen (no_desc n)).
Proof.
  intros le a n A. unfold note_bytes. rewrite !zlen_app, !zlen_word, !zlen_padding by (destruct A; lia).
  rewrite <- !pad_up by exact A. lia.
Qed.
Lemma alignment_48 : forall ty, alignment ty = 4 \/ alignment ty = 8.
Proof. intros ty. unfold alignment. destruct (ty =? ELF_T_NHDR8); auto. Qed.

Definition note_ok (n : note) : Prop := bytes_ok (no_name n) /\ bytes_ok (no_desc n) /\ is_u32 (no_type n).

Lemma iterate_exact : forall le ty tail ns pre, note_type ty -> Forall note_ok ns -> bytes_ok pre -> bytes_ok tail ->
  zlen tail < 12 -> zlen pre mod alignment ty = 0 ->
  forall b, b = pre ++ concat (map (note_bytes le (alignment ty)) ns) ++ tail -> zlen b <= two32 - 8 -> mem_ok (bmem b) ->
  forall fuel, (length ns < fuel)%nat ->
  exists rs, iterate fuel le ty (bmem b) (zlen b) (zlen pre) = Ok rs /\
    map (fun r => match r with (h, name, desc) => (zsub b name (nh_namesz h), zsub b desc (nh_descsz h), nh_type h) end) rs
    = map (fun n => (no_name n, no_desc n, no_type n)) ns.
Proof.
  intros le ty tail. induction ns as [|n ns IH]; intros pre T F P TL TS AL b B SZ M fuel FU; (destruct fuel as [|fuel]; [cbn in FU; lia|]); cbn [iterate].
  - pose proof (zlen_nonneg _ pre) as PN. pose proof (zlen_nonneg _ tail) as TN. subst b. cbn [map concat app] in *. rewrite zlen_app in *.
    unfold gelf_getnote. replace (negb (ty =? ELF_T_NHDR) && negb (ty =? ELF_T_NHDR8)) with false by (destruct T as [-> | ->]; reflexivity).
    replace ((zlen pre + zlen tail <? zlen pre) || (zlen pre + zlen tail - zlen pre <? 12)) with true by lia.
    cbn. exists []. auto.
  - inversion F as [|? ? (ON & OD & OT) F']; subst.
    set (a := alignment ty) in *. pose proof (alignment_48 ty) as A. fold a in A.
    cbn [map concat]. cbn [map concat] in SZ, M. set (b := pre ++ (note_bytes le a n ++ concat (map (note_bytes le a) ns)) ++ tail) in *.
    pose proof (zlen_nonneg _ pre) as PN. pose proof (zlen_nonneg _ (no_name n)) as NN. pose proof (zlen_nonneg _ (no_desc n)) as DN.
    pose proof (zlen_nonneg _ (concat (map (note_bytes le a) ns))) as CN. pose proof (zlen_nonneg _ tail) as TN.
    pose proof (note_len le a n A) as NL.
    assert (BL : zlen b = zlen pre + zlen (note_bytes le a n) + zlen (concat (map (note_bytes le a) ns)) + zlen tail) by (unfold b; rewrite !zlen_app; lia).
    assert (UP : 12 + zlen (no_name n) <= align_up a (12 + zlen (no_name n)) /\ zlen (no_desc n) <= align_up a (zlen (no_desc n))) by (unfold align_up; destruct A as [-> | ->]; lia).
    assert (R1 : rd32 le (bmem b) (zlen pre) = zlen (no_name n)).
    { unfold b, note_bytes. rewrite <- !app_assoc. apply rd32_at. unfold is_u32. lia. }
    assert (R2 : rd32 le (bmem b) (zlen pre + 4) = zlen (no_desc n)).
    { unfold b, note_bytes. rewrite <- !app_assoc. rewrite app_assoc.
      replace (zlen pre + 4) with (zlen (pre ++ word le (zlen (no_name n)))) by (rewrite zlen_app, zlen_word; reflexivity).
      apply rd32_at. unfold is_u32. lia. }
    assert (R3 : rd32 le (bmem b) (zlen pre + 8) = no_type n).
    { unfold b, note_bytes. rewrite <- !app_assoc. rewrite (app_assoc pre), (app_assoc (pre ++ _)).
      replace (zlen pre + 8) with (zlen ((pre ++ word le (zlen (no_name n))) ++ word le (zlen (no_desc n)))) by (rewrite !zlen_app, !zlen_word; lia).
      apply rd32_at. exact OT. }
    assert (GET : gelf_getnote le (Some ty) (bmem b) (zlen b) (zlen pre) =
      Ok (GN (zlen pre + zlen (note_bytes le a n)) None (Some (Nhdr (zlen (no_name n)) (zlen (no_desc n)) (no_type n)))
           (Some (zlen pre + 12)) (Some (zlen pre + align_up a (12 + zlen (no_name n)))))).
    { unfold gelf_getnote. replace (negb (ty =? ELF_T_NHDR) && negb (ty =? ELF_T_NHDR8)) with false by (destruct T as [-> | ->]; reflexivity).
      replace ((zlen b <? zlen pre) || (zlen b - zlen pre <? 12)) with false by lia. cbv zeta.
      replace (u64 (zlen pre + 12)) with (zlen pre + 12) by (unfold u64; rewrite Z.mod_small; lia).
      replace (zlen b <? zlen pre + 12) with false by lia.
      unfold chk, inside. replace ((0 <=? zlen pre) && (0 <=? 4) && (zlen pre + 4 <=? zlen b)) with true by lia.
      rewrite R1. replace (u64 (zlen pre + 12 + zlen (no_name n))) with (zlen pre + 12 + zlen (no_name n)) by (unfold u64; rewrite Z.mod_small; lia).
      replace (zlen b <? zlen pre + 12 + zlen (no_name n)) with false by lia.
      replace ((0 <=? zlen pre + 4) && (0 <=? 4) && (zlen pre + 4 + 4 <=? zlen b)) with true by lia.
      rewrite R2. rewrite align32_eq by lia. rewrite note_align_eq by lia. rewrite <- alignment_nal. fold a.
      assert (AA : align_up a (zlen pre + 12 + zlen (no_name n)) = zlen pre + align_up a (12 + zlen (no_name n))).
      { unfold align_up. destruct A as [-> | ->]; lia. }
      rewrite AA. rewrite !(Z.mod_small _ two32) by lia.
      match goal with |- (if ?c then _ else _) = _ => replace c with false by lia end.
      replace ((0 <=? zlen pre + 8) && (0 <=? 4) && (zlen pre + 8 + 4 <=? zlen b)) with true by lia.
      rewrite R3. do 2 f_equal. unfold u64. rewrite Z.mod_small by lia. lia. }
    rewrite GET. cbn [obind gn_ret gn_result gn_name gn_desc].
    replace (zlen pre + zlen (note_bytes le a n) =? 0) with false by lia.
    destruct (IH (pre ++ note_bytes le a n)) with (b := b) (fuel := fuel) as (rs & E & EQ); auto.
    { apply bytes_ok_app. split; [exact P|]. unfold note_bytes. rewrite !bytes_ok_app.
      assert (W : forall x, bytes_ok (word le x)) by (intros x; unfold word; destruct le; [apply le_bytes_ok|apply be_bytes_ok]).
      assert (PD : forall k, bytes_ok (padding a k)).
      { intros k. unfold padding. apply Forall_forall. intros x X. apply repeat_spec in X. subst x. unfold is_u8. lia. }
      auto 20. }
    { rewrite zlen_app, NL. fold a. unfold align_up. destruct A as [E | E]; rewrite E in *; lia. }
    { unfold b. fold a. rewrite <- !app_assoc. reflexivity. }
    { cbn [length] in FU. lia. }
    rewrite zlen_app in E. rewrite E. cbn [obind]. eexists. split; [reflexivity|].
    cbn [map nh_namesz nh_descsz nh_type]. rewrite EQ. do 2 f_equal. f_equal.
    { unfold b, note_bytes. rewrite <- !app_assoc. rewrite (app_assoc pre), (app_assoc (pre ++ _)), (app_assoc ((pre ++ _) ++ _)).
      replace (zlen pre + 12) with (zlen (((pre ++ word le (zlen (no_name n))) ++ word le (zlen (no_desc n))) ++ word le (no_type n)))
        by (rewrite !zlen_app, !zlen_word; lia).
      apply zsub_app. }
    { unfold b. generalize (concat (map (note_bytes le a) ns)). intros rest. unfold note_bytes.
      replace (pre ++ ((word le (zlen (no_name n)) ++ word le (zlen (no_desc n)) ++ word le (no_type n) ++ no_name n ++ padding a (12 + zlen (no_name n)) ++ no_desc n ++ padding a (zlen (no_desc n))) ++ rest) ++ tail)
      with ((pre ++ word le (zlen (no_name n)) ++ word le (zlen (no_desc n)) ++ word le (no_type n) ++ no_name n ++ padding a (12 + zlen (no_name n))) ++ no_desc n ++ (padding a (zlen (no_desc n)) ++ rest ++ tail)) by (rewrite <- !app_assoc; reflexivity).
      replace (zlen pre + align_up a (12 + zlen (no_name n))) with
       (zlen (pre ++ word le (zlen (no_name n)) ++ word le (zlen (no_desc n)) ++ word le (no_type n) ++ no_name n ++ padding a (12 + zlen (no_name n)))).
      { apply zsub_app. }
      rewrite !zlen_app, !zlen_word, zlen_padding by (destruct A; lia). rewrite <- pad_up by exact A. lia. }
Qed.

(* On data that consists of notes in the standard layout (name and descriptor padded
   to the alignment of the data type), followed by less than a header, iterating from
   offset 0 reports exactly these notes, in order, with the right type and with
   offsets at which the name and the descriptor really are. *)
Theorem C22_iteration_exact : forall le ty ns tail, note_type ty -> Forall note_ok ns -> bytes_ok tail -> zlen tail < 12 ->
  let b := concat (map (note_bytes le (alignment ty)) ns) ++ tail in zlen b <= two32 - 8 ->
  forall fuel, (length ns < fuel)%nat ->
  exists rs, iterate fuel le ty (bmem b) (zlen b) 0 = Ok rs /\
    map (fun r => match r with (h, name, desc) => (zsub b name (nh_namesz h), zsub b desc (nh_descsz h), nh_type h) end) rs
    = map (fun n => (no_name n, no_desc n, no_type n)) ns.
Proof.
  intros le ty ns tail T F TL TS b SZ fuel FU.
  apply (iterate_exact le ty tail ns []); auto.
  - constructor.
  - intros x. unfold bmem. destruct (nth_in_or_default (Z.to_nat x) b 0) as [I|E]; [|rewrite E; unfold is_u8; lia].
    assert (BO : bytes_ok b); [|exact (proj1 (Forall_forall _ _) BO _ I)].
    unfold b. apply bytes_ok_app. split; [|exact TL]. clear - F. induction F as [|n l (A & B & C) F IH]; [constructor|]. cbn [map concat].
    apply bytes_ok_app. split; [|exact IH]. unfold note_bytes. rewrite !bytes_ok_app.
    assert (W : forall x, bytes_ok (word le x)) by (intros x; unfold word; destruct le; [apply le_bytes_ok|apply be_bytes_ok]).
    assert (PD : forall k, bytes_ok (padding (alignment ty) k)).
    { intros k. unfold padding. apply Forall_forall. intros x X. apply repeat_spec in X. subst x. unfold is_u8. lia. }
    auto 20.
Qed.
Print Assumptions C22_iteration_exact.
Example C22_iteration_exact_nonvacuous :
  note_type ELF_T_NHDR8 /\ Forall note_ok [Note [71; 78; 85; 0] [1; 2; 3; 4; 5] 3; Note [65; 0] [] 1] /\
  let b := concat (map (note_bytes true 8) [Note [71; 78; 85; 0] [1; 2; 3; 4; 5] 3; Note [65; 0] [] 1]) in
  match iterate 9 true ELF_T_NHDR8 (bmem b) (zlen b) 0 with Ok l => Some l | _ => None end
  = Some [(Nhdr 4 5 3, 12, 16); (Nhdr 2 0 1, 36, 40)].
Proof.
  split; [right; reflexivity|]. split; [|vm_compute; reflexivity].
  repeat constructor; unfold is_u32; cbn; lia.
Qed.

(* The alignment macros clear the upper half of a 64-bit offset.  In data of 4 GiB and
   more the offset then jumps back: the result is not behind the offset passed, the
   descriptor is said to start before its own header, and an iteration need not
   end. *)
Theorem C22_progress_refuted : exists size off r, is_u64 off /\ 0 <= size < two63 /\
  gelf_getnote true (Some ELF_T_NHDR) (fun _ => 0) size off = Ok r /\
  gn_ret r <> 0 /\ gn_ret r <= off /\ gn_desc r = Some (gn_ret r).
Proof.
  exists (two32 + 12), (two32 - 4). eexists. split; [unfold is_u64; lia|]. split; [lia|]. split; [vm_compute; reflexivity|].
  cbn. split; [discriminate|]. split; [discriminate|reflexivity].
Qed.
Print Assumptions C22_progress_refuted.
Definition looping : mem := fun x =>
  if x =? 0 then 252 else if x =? 8 then 244 else if (1 <=? x) && (x <=? 3) || (9 <=? x) && (x <=? 11) then 255 else 0.
(* In data of 4 GiB and more the iteration does not end. *)
Theorem C22_iteration_terminates_refuted : exists m size, mem_ok m /\ 0 <= size < two63 /\
  forall fuel, iterate fuel true ELF_T_NHDR m size 0 = Fuel.
Proof.
  exists looping, (two32 + 24). split.
  { intros x. unfold looping, is_u8. destruct (x =? 0); [lia|]. destruct (x =? 8); [lia|]. destruct (_ || _); lia. }
  split; [lia|].
  assert (G : forall fuel, iterate fuel true ELF_T_NHDR looping (two32 + 24) 8 = Fuel).
  { induction fuel as [|fuel IH]; [reflexivity|]. cbn [iterate].
    replace (gelf_getnote true (Some ELF_T_NHDR) looping (two32 + 24) 8)
      with (Ok (GN 8 None (Some (Nhdr 4294967284 0 0)) (Some 20) (Some 8))) by (vm_compute; reflexivity).
    cbn [obind gn_ret gn_result gn_name gn_desc Z.eqb]. rewrite IH. reflexivity. }
  intros [|fuel]; [reflexivity|]. cbn [iterate].
  replace (gelf_getnote true (Some ELF_T_NHDR) looping (two32 + 24) 0)
    with (Ok (GN 8 None (Some (Nhdr 4294967292 0 4294967284)) (Some 12) (Some 8))) by (vm_compute; reflexivity).
  cbn [obind gn_ret gn_result gn_name gn_desc Z.eqb]. rewrite G. reflexivity.
Qed.
Print Assumptions C22_iteration_terminates_refuted.
