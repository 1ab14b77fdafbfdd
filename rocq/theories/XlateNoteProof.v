(* Proofs about XlateModel: notes. *)
From Verif Require Import Base ElfErr XlateModel XlateSpec XlateProof.

Lemma land_hi : forall k j x, 0 <= k -> 0 <= j ->
  Z.land x (Z.ones j * 2 ^ k) = ((x / 2 ^ k) mod 2 ^ j) * 2 ^ k.
Proof.
  intros k j x Hk Hj. apply Z.bits_inj'. intros n Hn. rewrite Z.land_spec.
  rewrite !Z.mul_pow2_bits by lia.
  destruct (Z_lt_le_dec n k) as [L|L].
  - rewrite !(Z.testbit_neg_r _ (n - k)) by lia. apply andb_false_r.
  - destruct (Z_lt_le_dec (n - k) j) as [M|M].
    + rewrite Z.ones_spec_low by lia. rewrite Z.mod_pow2_bits_low by lia.
      rewrite Z.div_pow2_bits by lia. rewrite andb_true_r. f_equal; lia.
    + rewrite Z.ones_spec_high by lia. rewrite Z.mod_pow2_bits_high by lia. apply andb_false_r.
Qed.


Lemma note_align_eq : forall h8 n, 0 <= n < 2 ^ 63 ->
  NOTE_ALIGN h8 n = align_up (nal h8) n mod two32.
Proof.
  intros h8 n H. unfold NOTE_ALIGN, nal, align_up, u64. destruct h8.
  - rewrite Z.mod_small by lia. change (two32 - 8) with (Z.ones 29 * 2 ^ 3).
    rewrite land_hi by lia. change (2 ^ 3) with 8. change (2 ^ 29) with 536870912.
    replace (n + 8 - 1) with (n + 7) by lia. change two32 with (536870912 * 8).
    rewrite Z.mul_mod_distr_r by lia. reflexivity.
  - rewrite Z.mod_small by lia. change (two32 - 4) with (Z.ones 30 * 2 ^ 2).
    rewrite land_hi by lia. change (2 ^ 2) with 4. change (2 ^ 30) with 1073741824.
    replace (n + 4 - 1) with (n + 3) by lia. change two32 with (1073741824 * 4).
    rewrite Z.mul_mod_distr_r by lia. reflexivity.
Qed.

Lemma note_align_range : forall h8 n, 0 <= NOTE_ALIGN h8 n < two32 /\ NOTE_ALIGN h8 n mod 4 = 0.
Proof.
  intros h8 n. unfold NOTE_ALIGN. destruct h8.
  - change (two32 - 8) with (Z.ones 29 * 2 ^ 3). rewrite land_hi by lia.
    change (2 ^ 3) with 8. change (2 ^ 29) with 536870912.
    set (q := u64 (n + 7) / 8). pose proof (Z.mod_pos_bound q 536870912). split; [lia|].
    replace (q mod 536870912 * 8) with ((q mod 536870912 * 2) * 4) by lia. apply Z_mod_mult.
  - change (two32 - 4) with (Z.ones 30 * 2 ^ 2). rewrite land_hi by lia.
    change (2 ^ 2) with 4. change (2 ^ 30) with 1073741824.
    set (q := u64 (n + 3) / 4). pose proof (Z.mod_pos_bound q 1073741824). split; [lia|].
    apply Z_mod_mult.
Qed.

Lemma align_up_small : forall h8 n, 0 <= n -> align_up (nal h8) n < two32 ->
  n <= align_up (nal h8) n /\ NOTE_ALIGN h8 (u64 n) = align_up (nal h8) n.
Proof.
  intros h8 n Hn H.
  assert (B : n <= align_up (nal h8) n) by (unfold align_up, nal in *; destruct h8; lia).
  split; [exact B|]. unfold u64. rewrite (Z.mod_small n) by lia.
  rewrite note_align_eq by lia. apply Z.mod_small. lia.
Qed.

Lemma firstn_exact : forall A n (a b : list A), length a = n -> firstn n (a ++ b) = a.
Proof. intros A n a b <-. rewrite firstn_app, Nat.sub_diag, firstn_all. apply app_nil_r. Qed.
Lemma skipn_exact : forall A n (a b : list A), length a = n -> skipn n (a ++ b) = b.
Proof. intros A n a b <-. rewrite skipn_app, Nat.sub_diag, skipn_all. reflexivity. Qed.

(* ------------------------------------------------------------------ *)
Lemma nhdr_ok : forall m d s, (d <= s \/ s + 12 <= d) ->
  rdm (cvt_rec fs_nhdr m d s) d 12 = swap_widths [4; 4; 4]%nat (rdm m s 12) /\
  (forall x, ~ (d <= x < d + 12) -> cvt_rec fs_nhdr m d s x = m x).
Proof. intros m d s H. apply (cvt_rec_ok fs_nhdr m d s eq_refl H). Qed.

Lemma host_w32 : forall le x, is_u32 x -> host le (w32 le x) = x.
Proof.
  intros le x H. unfold host, w32. unfold is_u32 in H. destruct le.
  - rewrite le_value_bytes. change (256 ^ Z.of_nat 4) with two32. apply Z.mod_small. lia.
  - rewrite be_value_bytes. change (256 ^ Z.of_nat 4) with two32. apply Z.mod_small. lia.
Qed.

Lemma w32_len : forall le x, length (w32 le x) = 4%nat.
Proof. intros [] x; [apply le_bytes_length|apply be_bytes_length]. Qed.

Lemma w32_rev : forall le x, rev (w32 le x) = w32 (negb le) x.
Proof. intros [] x; unfold w32, be_bytes; cbn [negb]; [reflexivity|apply rev_involutive]. Qed.

Lemma swap3 : forall a b c r : bytes, length a = 4%nat -> length b = 4%nat -> length c = 4%nat ->
  swap_widths [4; 4; 4]%nat (a ++ b ++ c) = rev a ++ rev b ++ rev c.
Proof.
  intros a b c _ A B C.
  destruct a as [|? [|? [|? [|? [|]]]]]; try discriminate.
  destruct b as [|? [|? [|? [|? [|]]]]]; try discriminate.
  destruct c as [|? [|? [|? [|? [|]]]]]; try discriminate. reflexivity.
Qed.

Lemma app_inj_len : forall A (a b c d : list A), length a = length c -> a ++ b = c ++ d -> a = c /\ b = d.
Proof.
  induction a; intros b c d L E; destruct c; try discriminate; [auto|].
  injection E as -> E. cbn in L. destruct (IHa b c d ltac:(lia) E) as [-> ->]. auto.
Qed.


Section Notes.
  Variables (le enc h8 : bool) (d s tot : Z).
  Let src_le := if enc then le else negb le.
  Let dst_le := negb src_le.
  Hypothesis Hmode : disj d s tot \/ (d = s /\ enc = false).
  Hypothesis Htot : 0 <= tot < two32.

  Lemma note_loop_ok : forall notes fuel m off len,
    Forall (note_ok (nal h8)) notes -> len = zlen (notes_bytes src_le notes) ->
    0 <= off -> off + len = tot -> (Z.to_nat len < fuel)%nat ->
    rdm m (s + off) (Z.to_nat len) = notes_bytes src_le notes ->
    exists m', cvt_note_loop fuel le enc h8 tot m d s off len = Ok m' /\
      rdm m' (d + off) (Z.to_nat len) = notes_bytes dst_le notes /\
      (forall x, ~ (d + off <= x < d + off + len) -> m' x = m x).
  Proof.
    induction notes as [|n notes IH]; intros fuel m off len HF Hlen Hoff Htl Hfu Hsrc;
      (destruct fuel as [|fuel]; [lia|]).
    - unfold notes_bytes in Hlen. cbn in Hlen. subst len. cbn [cvt_note_loop].
      change (sz_nhdr <=? 0) with false. change (0 <? 0) with false. cbn [andb].
      exists m. split; [reflexivity|]. split; [reflexivity|auto].
    - pose proof (Forall_inv HF) as Hn. pose proof (Forall_inv_tail HF) as HF'.
      destruct Hn as (Hns & Hds & Hty & Hp).
      set (p := n_payload n) in *. set (L := note_len (nal h8) n) in *.
      assert (Enb : forall l, notes_bytes l (n :: notes)
                = (w32 l (n_namesz n) ++ w32 l (n_descsz n) ++ w32 l (n_type n)) ++ p ++ notes_bytes l notes).
      { intros l. unfold notes_bytes. cbn [map concat]. unfold note_bytes. fold p.
        rewrite <- !app_assoc. reflexivity. }
      set (hd l := w32 l (n_namesz n) ++ w32 l (n_descsz n) ++ w32 l (n_type n)) in *.
      assert (Lhd : forall l, length (hd l) = 12%nat) by (intros l; unfold hd; rewrite !app_length, !w32_len; reflexivity).
      assert (Zhd : forall l, zlen (hd l) = 12) by (intros l; unfold zlen; now rewrite Lhd).
      rename Hlen into Elen.
      set (rl := zlen (notes_bytes src_le notes)).
      assert (Elen' : len = L + rl).
      { rewrite Elen, Enb, (zlen_app _ _ (p ++ _)). fold (hd src_le). rewrite Zhd, zlen_app. fold rl. lia. }
      assert (0 <= rl) by apply zlen_nonneg. pose proof (zlen_nonneg _ p).
      assert (EL : Z.to_nat len = (12 + (length p + Z.to_nat rl))%nat) by (unfold zlen in *; lia).
      rewrite EL in Hsrc. rewrite Enb in Hsrc. fold (hd src_le) in Hsrc.
      rewrite rdm_app in Hsrc. apply app_inj_len in Hsrc; [|now rewrite rdm_len, Lhd].
      destruct Hsrc as [S1 S2]. rewrite rdm_app in S2. apply app_inj_len in S2; [|now rewrite rdm_len].
      destruct S2 as [S2 S3]. change (Z.of_nat 12) with 12 in *.
      cbn [cvt_note_loop]. replace (sz_nhdr <=? len) with true by (unfold sz_nhdr; lia).
      unfold chk at 1. replace (inside tot off sz_nhdr) with true by (unfold inside, sz_nhdr; lia).
      set (m1 := cvt_rec fs_nhdr m (d + off) (s + off)).
      destruct (nhdr_ok m (d + off) (s + off)) as [R1 F1]; [unfold disj in Hmode; lia|].
      fold m1 in R1, F1. rewrite S1 in R1. unfold hd in R1. rewrite swap3 in R1 by (try exact []; apply w32_len).
      rewrite !w32_rev in R1. fold (hd (negb src_le)) in R1. fold dst_le in R1.
      assert (S1' : disj d s tot -> rdm m1 (s + off) 12 = hd src_le).
      { intros Dj. rewrite <- S1. apply rdm_ext. intros. apply F1. unfold disj in Dj. lia. }
      assert (Hat : rdm m1 ((if enc then s else d) + off) 12 = hd le).
      { unfold dst_le, src_le in *. destruct enc.
        - apply S1'. destruct Hmode as [?|[_ ?]]; [assumption|discriminate].
        - rewrite negb_involutive in R1. exact R1. }
      set (a := (if enc then s else d) + off) in *.
      assert (N1 : rd32 le m1 a = n_namesz n).
      { unfold rd32. rewrite <- (firstn_rdm 4 m1 a 12), Hat by lia. unfold hd.
        rewrite firstn_exact by apply w32_len. apply host_w32. exact Hns. }
      assert (N2 : rd32 le m1 (a + 4) = n_descsz n).
      { unfold rd32. change 4 with (Z.of_nat 4). rewrite <- (firstn_rdm 4 m1 (a + Z.of_nat 4) 8) by lia.
        change 8%nat with (12 - 4)%nat. rewrite <- (skipn_rdm 4 m1 a 12), Hat by lia. unfold hd.
        rewrite skipn_exact by apply w32_len. rewrite firstn_exact by apply w32_len.
        apply host_w32. exact Hds. }
      rewrite N1, N2. change (u64 (sz_nhdr + n_namesz n)) with (u64 (12 + n_namesz n)).
      unfold is_u32 in Hns, Hds.
      set (x1 := align_up (nal h8) (12 + n_namesz n)) in *.
      assert (X1 : x1 <= L /\ 12 <= x1).
      { unfold L, note_len. fold x1. subst x1. unfold align_up, nal. destruct h8; lia. }
      destruct (align_up_small h8 (12 + n_namesz n)) as [B1 A1]; [lia|fold x1; lia|]. fold x1 in A1, B1.
      destruct (align_up_small h8 (x1 + n_descsz n)) as [B2 A2]; [lia|fold (note_len (nal h8) n); change (L < two32); lia|].
      rewrite A1. replace ((len <? x1) || (x1 <? 8)) with false by lia.
      rewrite A2. change (align_up (nal h8) (x1 + n_descsz n)) with L.
      replace ((len <? L) || (L <? 8)) with false by lia.
      destruct (d =? s) eqn:Eds.
      + assert (Ed : d = s) by lia.
        assert (F1s : forall q, 12 <= q -> forall k, rdm m1 (s + off + q) k = rdm m (s + off + q) k).
        { intros q Hq k. apply rdm_ext. intros. apply F1. lia. }
        destruct (IH fuel m1 (off + L) (len - L) HF') as (m' & X & R & F); [lia|lia|lia|lia| |].
        { replace (len - L) with rl by lia. rewrite <- S3.
          replace (s + (off + L)) with (s + off + (12 + Z.of_nat (length p))) by (unfold zlen in *; lia).
          rewrite F1s by lia. f_equal. lia. }
        exists m'. split; [exact X|]. split.
        * rewrite EL, Enb. fold (hd dst_le). rewrite !rdm_app. f_equal; [|f_equal].
          -- rewrite (rdm_ext _ m1) by (intros; apply F; lia). exact R1.
          -- rewrite (rdm_ext _ m1) by (intros; apply F; unfold zlen in *; lia).
             rewrite Ed, F1s by lia. exact S2.
          -- replace (d + off + Z.of_nat 12 + Z.of_nat (length p)) with (d + (off + L)) by (unfold zlen in *; lia).
             replace (Z.to_nat rl) with (Z.to_nat (len - L)) by lia. exact R.
        * intros x Hx. rewrite F by lia. apply F1. lia.
      + assert (Dj : disj d s tot) by (destruct Hmode as [?|[? _]]; [assumption|lia]).
        assert (Ed : u64 (L - sz_nhdr) = zlen p) by (unfold u64, sz_nhdr; rewrite Z.mod_small; lia).
        rewrite Ed. unfold chk.
        replace (inside tot (off + sz_nhdr) (zlen p) && negb (overlap (d + off + sz_nhdr) (s + off + sz_nhdr) (zlen p)))
          with true by (unfold inside, overlap, sz_nhdr, disj in *; lia).
        unfold sz_nhdr.
        set (m2 := memmove m1 (d + off + 12) (s + off + 12) (zlen p)).
        destruct (memmove_ok m1 (d + off + 12) (s + off + 12) (zlen p)) as [R2 F2]; [lia|].
        fold m2 in R2, F2. replace (Z.to_nat (zlen p)) with (length p) in R2 by (unfold zlen; lia).
        assert (F12 : forall x, ~ (d + off <= x < d + off + L) -> m2 x = m x).
        { intros x Hx. rewrite F2 by lia. apply F1. lia. }
        destruct (IH fuel m2 (off + L) (len - L) HF') as (m' & X & R & F); [lia|lia|lia|lia| |].
        { replace (len - L) with rl by lia. rewrite <- S3.
          replace (s + (off + L)) with (s + off + 12 + Z.of_nat (length p)) by (unfold zlen in *; lia).
          apply rdm_ext. intros. apply F12. unfold disj, zlen in *. lia. }
        exists m'. split; [exact X|]. split.
        * rewrite EL, Enb. fold (hd dst_le). rewrite !rdm_app. change (Z.of_nat 12) with 12. f_equal; [|f_equal].
          -- rewrite (rdm_ext _ m2) by (intros; apply F; lia).
             rewrite (rdm_ext _ m1) by (intros; apply F2; lia). exact R1.
          -- rewrite (rdm_ext _ m2) by (intros; apply F; unfold zlen in *; lia).
             rewrite R2. transitivity (rdm m (s + off + 12) (length p)); [|exact S2]. apply rdm_ext. intros. apply F1. unfold disj, zlen in *; lia.
          -- replace (d + off + 12 + Z.of_nat (length p)) with (d + (off + L)) by (unfold zlen in *; lia).
             replace (Z.to_nat rl) with (Z.to_nat (len - L)) by lia. exact R.
        * intros x Hx. rewrite F by lia. apply F12. lia.
  Qed.
End Notes.

Lemma cvt_note_ok : forall le enc h8 m d s len notes,
  disj d s len \/ (d = s /\ enc = false) -> 0 <= len < two32 ->
  Forall (note_ok (nal h8)) notes ->
  rdm m s (Z.to_nat len) = notes_bytes (if enc then le else negb le) notes ->
  exists m', cvt_note le enc h8 m d s len = Ok m' /\
    rdm m' d (Z.to_nat len) = notes_bytes (if enc then negb le else le) notes /\
    (forall x, ~ (d <= x < d + len) -> m' x = m x).
Proof.
  intros le enc h8 m d s len notes Hm Hl HF Hs. unfold cvt_note.
  assert (Elen : len = zlen (notes_bytes (if enc then le else negb le) notes))
    by (rewrite <- Hs, zlen_rdm; lia).
  destruct (note_loop_ok le enc h8 d s len Hm Hl notes (S (Z.to_nat len)) m 0 len HF Elen)
    as (m' & X & R & F); [lia|lia|lia| |].
  - replace (s + 0) with s by lia. exact Hs.
  - exists m'. split; [exact X|]. replace (d + 0) with d in R, F by lia. split; [|exact F].
    rewrite R. destruct enc; [reflexivity|now rewrite negb_involutive].
Qed.

(* ------------------------------------------------------------------ *)
(* Arbitrary content. *)
Lemma note_inplace_safe : forall le enc h8 tot d fuel m off len,
  0 <= off -> off + len = tot -> 0 <= len -> (Z.to_nat len < fuel)%nat ->
  exists m', cvt_note_loop fuel le enc h8 tot m d d off len = Ok m' /\
    (forall x, ~ (d + off <= x < d + off + len) -> m' x = m x).
Proof.
  intros le enc h8 tot d. induction fuel as [|fuel IH]; intros m off len Ho Ht Hl Hf; [lia|].
  cbn [cvt_note_loop]. rewrite Z.eqb_refl. cbn [negb]. rewrite andb_false_r.
  destruct (sz_nhdr <=? len) eqn:E; [|eauto].
  unfold chk. unfold sz_nhdr in *. replace (inside tot off 12) with true by (unfold inside; lia).
  set (m1 := cvt_rec fs_nhdr m (d + off) (d + off)).
  destruct (nhdr_ok m (d + off) (d + off)) as [_ F1]; [lia|]. fold m1 in F1.
  set (nl := NOTE_ALIGN h8 _). destruct ((len <? nl) || (nl <? 8)) eqn:E1.
  { exists m1. split; [reflexivity|]. intros; apply F1; lia. }
  set (nl2 := NOTE_ALIGN h8 (u64 (nl + _))). destruct ((len <? nl2) || (nl2 <? 8)) eqn:E2.
  { exists m1. split; [reflexivity|]. intros; apply F1; lia. }
  destruct (IH m1 (off + nl2) (len - nl2)) as (m' & X & F); [lia|lia|lia|lia|].
  exists m'. split; [exact X|]. intros x Hx. rewrite F by lia. apply F1. lia.
Qed.

(* The sizes at offset o make the total note length wrap round to 8. *)


Lemma rdm_ok : forall m a n, mem_ok m -> bytes_ok (rdm m a n).
Proof.
  intros m a n H. unfold bytes_ok, rdm. apply Forall_forall. intros x Hx.
  apply in_map_iff in Hx as (i & <- & _). apply H.
Qed.

Lemma zsub_rdm : forall m a n o k, 0 <= o -> 0 <= k -> o + k <= Z.of_nat n ->
  zsub (rdm m a n) o k = rdm m (a + o) (Z.to_nat k).
Proof.
  intros m a n o k Ho Hk H. unfold zsub. rewrite skipn_rdm by lia. rewrite firstn_rdm by lia.
  f_equal. lia.
Qed.

Lemma word32_rdm : forall le m a n o, 0 <= o -> o + 4 <= Z.of_nat n ->
  word32 le (rdm m a n) o = rd32 le m (a + o).
Proof.
  intros. unfold word32, rd32, host. rewrite zsub_rdm by lia. reflexivity.
Qed.

Lemma host_range : forall le b, bytes_ok b -> length b = 4%nat -> 0 <= host le b < two32.
Proof.
  intros le b Hb L. unfold host, be_value.
  assert (E : 256 ^ zlen b = two32) by (unfold zlen; rewrite L; reflexivity).
  destruct le.
  - pose proof (le_value_bound b Hb). lia.
  - assert (Hr : bytes_ok (rev b)) by (apply Forall_rev; exact Hb).
    pose proof (le_value_bound _ Hr) as P. rewrite zlen_rev, E in P. exact P.
Qed.

Lemma note_copy_safe : forall le enc h8 tot d s fuel m0 m off len,
  disj d s tot -> mem_ok m0 -> (forall x, s <= x < s + tot -> m x = m0 x) ->
  0 <= off -> off + len = tot -> 0 <= len -> (Z.to_nat len < fuel)%nat ->
  (exists m', cvt_note_loop fuel le enc h8 tot m d s off len = Ok m' /\
    (forall x, ~ (d + off <= x < d + off + len) -> m' x = m x)) \/
  (exists o, note_wraps (nal h8) (if enc then le else negb le) (rdm m0 s (Z.to_nat tot)) o).
Proof.
  intros le enc h8 tot d s. induction fuel as [|fuel IH]; intros m0 m off len Dj Hm0 Hs Ho Ht Hl Hf; [lia|].
  cbn [cvt_note_loop]. unfold sz_nhdr.
  assert (LO : forall m1, (forall x, ~ (d + off <= x < d + off + len) -> m1 x = m x) ->
    exists m', (if (0 <? len) && negb (d =? s)
       then chk (inside tot off len && negb (overlap (d + off) (s + off) len))
              (Ok (memmove m1 (d + off) (s + off) len)) else Ok m1) = Ok m' /\
      (forall x, ~ (d + off <= x < d + off + len) -> m' x = m x)).
  { intros m1 F. destruct ((0 <? len) && negb (d =? s)) eqn:E.
    - unfold chk. replace (inside tot off len && negb (overlap (d + off) (s + off) len))
        with true by (unfold inside, overlap, disj in *; lia).
      eexists. split; [reflexivity|]. intros x Hx.
      destruct (memmove_ok m1 (d + off) (s + off) len Hl) as [_ F']. rewrite F' by lia. auto.
    - eexists. split; [reflexivity|exact F]. }
  destruct (12 <=? len) eqn:E; [|left; apply LO; auto].
  unfold chk at 2. replace (inside tot off 12) with true by (unfold inside; lia).
  set (m1 := cvt_rec fs_nhdr m (d + off) (s + off)).
  destruct (nhdr_ok m (d + off) (s + off)) as [R1 F1]; [unfold disj in Dj; lia|]. fold m1 in R1, F1.
  set (a := (if enc then s else d) + off).
  set (b := rdm m0 s (Z.to_nat tot)). set (sl := if enc then le else negb le).
  assert (Lb : zlen b = tot) by (unfold b; rewrite zlen_rdm; lia).
  assert (HW : forall q, q = 0 \/ q = 4 -> rd32 le m1 (a + q) = word32 sl b (off + q)).
  { intros q Hq. unfold b. rewrite word32_rdm by lia. unfold a, sl. destruct enc.
    - unfold rd32. replace (s + (off + q)) with (s + off + q) by lia. f_equal. apply rdm_ext. intros x Hx. rewrite F1 by (unfold disj in Dj; lia).
      apply Hs. lia.
    - unfold rd32.
      assert (Es : rdm m (s + off) 12 = rdm m0 (s + off) 12) by (apply rdm_ext; intros; apply Hs; lia).
      rewrite Es in R1. set (B := rdm m0 (s + off) 12) in *.
      assert (Eq1 : rdm m1 (d + off + q) 4 = rev (rdm m0 (s + (off + q)) 4)).
      { destruct Hq; subst q.
        - replace (d + off + 0) with (d + off) by lia. rewrite <- (firstn_rdm 4 m1 (d + off) 12), R1 by lia.
          unfold B. rewrite !rdm_S. cbn [swap_widths firstn rev app skipn].
          repeat (apply (f_equal2 (@cons Z)); [apply (f_equal m0); lia|]). reflexivity.
        - replace (d + off + 4) with (d + off + Z.of_nat 4) by lia.
          rewrite <- (firstn_rdm 4 m1 (d + off + Z.of_nat 4) 8) by lia. change 8%nat with (12 - 4)%nat.
          rewrite <- (skipn_rdm 4 m1 (d + off) 12), R1 by lia. unfold B.
          rewrite !rdm_S. cbn [swap_widths firstn rev app skipn].
          repeat (apply (f_equal2 (@cons Z)); [apply (f_equal m0); lia|]). reflexivity. }
      rewrite Eq1. unfold host, be_value. destruct le; cbn [negb]; [reflexivity|now rewrite rev_involutive]. }
  assert (W0 : rd32 le m1 a = word32 sl b off).
  { replace a with (a + 0) by lia. rewrite HW by auto. f_equal; lia. }
  assert (W4 : rd32 le m1 (a + 4) = word32 sl b (off + 4)) by (apply HW; auto).
  assert (WR : forall o, 0 <= o -> o + 4 <= tot -> 0 <= word32 sl b o < two32).
  { intros o O1 O2. unfold word32. fold (host sl (zsub b o 4)). unfold b. rewrite zsub_rdm by lia.
    apply host_range; [apply rdm_ok; assumption|apply rdm_len]. }
  rewrite W0, W4. pose proof (WR off ltac:(lia) ltac:(lia)) as B0. pose proof (WR (off + 4) ltac:(lia) ltac:(lia)) as B4.
  set (nl := NOTE_ALIGN h8 (u64 (12 + word32 sl b off))).
  set (nl2 := NOTE_ALIGN h8 (u64 (nl + word32 sl b (off + 4)))).
  destruct (note_align_range h8 (u64 (12 + word32 sl b off))) as [Q1 _]. fold nl in Q1.
  destruct (note_align_range h8 (u64 (nl + word32 sl b (off + 4)))) as [Q2 Q3]. fold nl2 in Q2, Q3.
  assert (F1' : forall x, ~ (d + off <= x < d + off + len) -> m1 x = m x) by (intros; apply F1; lia).
  destruct ((len <? nl) || (nl <? 8)) eqn:E1; [left; apply LO; exact F1'|].
  destruct ((len <? nl2) || (nl2 <? 8)) eqn:E2; [left; apply LO; exact F1'|].
  destruct (Z.eq_dec nl2 8) as [E8|E8].
  { right. exists off. split; [lia|]. split; [lia|].
    assert (A1 : nl = align_up (nal h8) (12 + word32 sl b off) mod two32).
    { unfold nl, u64. rewrite (Z.mod_small (12 + word32 sl b off)) by lia. apply note_align_eq. lia. }
    rewrite <- A1. rewrite <- E8. unfold nl2, u64. rewrite (Z.mod_small (nl + word32 sl b (off + 4))) by lia.
    symmetry. apply note_align_eq. lia. }
  assert (12 <= nl2) by lia.
  destruct (d =? s) eqn:Eds; [unfold disj in Dj; lia|].
  assert (Ed : u64 (nl2 - 12) = nl2 - 12) by (unfold u64; rewrite Z.mod_small; lia).
  rewrite Ed. unfold chk.
  replace (inside tot (off + 12) (nl2 - 12) && negb (overlap (d + off + 12) (s + off + 12) (nl2 - 12)))
    with true by (unfold inside, overlap, disj in *; lia).
  set (m2 := memmove m1 (d + off + 12) (s + off + 12) (nl2 - 12)).
  destruct (memmove_ok m1 (d + off + 12) (s + off + 12) (nl2 - 12)) as [_ F2]; [lia|]. fold m2 in F2.
  destruct (IH m0 m2 (off + nl2) (len - nl2) Dj Hm0) as [(m' & X & F)|X]; [|lia|lia|lia|lia| |right; exact X].
  { intros x Hx. rewrite F2 by (unfold disj in Dj; lia). rewrite F1 by (unfold disj in Dj; lia). auto. }
  left. exists m'. split; [exact X|]. intros x Hx. rewrite F by lia. rewrite F2 by lia. apply F1. lia.
Qed.
