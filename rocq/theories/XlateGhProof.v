(* Proofs about XlateModel: 64-bit GNU hash sections. *)
From Verif Require Import Base ElfErr XlateModel XlateSpec XlateProof XlateNoteProof XlateVerProof.

Lemma total_repeat : forall w n, total (repeat w n) = (n * w)%nat.
Proof. induction n; [reflexivity|]. cbn [repeat total fold_right Nat.mul]. fold (total (repeat w n)). lia. Qed.

(* c: the number of words that fit. *)
Lemma gh_ok : forall c n w tot m d s off, (0 < w)%nat -> 0 <= off ->
  d <= s \/ s + tot <= d ->
  off + Z.of_nat (c * w) <= tot ->
  (c = n \/ ((c < n)%nat /\ tot < off + Z.of_nat (c * w) + Z.of_nat w)) ->
  exists m', gh_words n w tot m d s off = Ok (m', (c <? n)%nat) /\
    rdm m' (d + off) (c * w) = swap_widths (repeat w c) (rdm m (s + off) (c * w)) /\
    (forall x, ~ (d + off <= x < d + off + Z.of_nat (c * w)) -> m' x = m x).
Proof.
  induction c as [|c IH]; intros n w tot m d s off Hw Ho Hd Hf Hn.
  - exists m. destruct n as [|n].
    + split; [reflexivity|]. split; [reflexivity|]. reflexivity.
    + cbn [gh_words]. replace (tot - off <? Z.of_nat w) with true by lia.
      split; [reflexivity|]. split; reflexivity.
  - destruct n as [|n]; [lia|]. cbn [Nat.mul] in *. cbn [gh_words].
    replace (tot - off <? Z.of_nat w) with false by lia.
    unfold chk. replace (inside tot off (Z.of_nat w)) with true by (unfold inside; lia).
    set (m1 := wrm m (d + off) (rev (rdm m (s + off) w))).
    assert (ZL : zlen (rev (rdm m (s + off) w)) = Z.of_nat w) by (rewrite zlen_rev, zlen_rdm; reflexivity).
    assert (F1 : forall x, ~ (d + off <= x < d + off + Z.of_nat w) -> m1 x = m x).
    { intros x Hx. apply wrm_out. rewrite ZL. exact Hx. }
    destruct (IH n w tot m1 d s (off + Z.of_nat w) Hw) as (m' & E & R & F); [lia|exact Hd|lia|lia|].
    exists m'. split; [rewrite E; f_equal|]. split.
    + rewrite !rdm_app. cbn [repeat swap_widths].
      rewrite firstn_exact, skipn_exact by apply rdm_len.
      f_equal.
      * rewrite (rdm_ext m' m1) by (intros x Hx; apply F; lia).
        unfold m1. apply rdm_wrm_same. rewrite rev_length, rdm_len. reflexivity.
      * replace (d + off + Z.of_nat w) with (d + (off + Z.of_nat w)) by lia. rewrite R.
        replace (s + (off + Z.of_nat w)) with (s + off + Z.of_nat w) by lia.
        f_equal. apply rdm_ext. intros x Hx. apply F1. lia.
    + intros x Hx. rewrite F, F1 by lia. reflexivity.
Qed.

(* Any content, any destination. *)
Lemma gh_safe : forall n w tot m d s off, 0 <= off ->
  exists m' e, gh_words n w tot m d s off = Ok (m', e) /\
    (e = false -> n = O \/ off + Z.of_nat n * Z.of_nat w <= tot) /\
    (forall x, ~ (d <= x < d + tot) -> m' x = m x).
Proof.
  induction n as [|n IH]; intros w tot m d s off Ho; cbn [gh_words].
  - exists m, false. split; [reflexivity|]. split; [auto|reflexivity].
  - destruct (tot - off <? Z.of_nat w) eqn:E.
    + exists m, true. split; [reflexivity|]. split; [discriminate|reflexivity].
    + unfold chk. replace (inside tot off (Z.of_nat w)) with true by (unfold inside; lia).
      destruct (IH w tot (wrm m (d + off) (rev (rdm m (s + off) w))) d s (off + Z.of_nat w)) as (m' & e & X & B & F); [lia|].
      exists m', e. split; [exact X|]. split.
      * intros He. right. destruct (B He) as [->|]; lia.
      * intros x Hx. rewrite F by lia. apply wrm_out. rewrite zlen_rev, zlen_rdm. lia.
Qed.

Lemma cvt_gnuhash_safe : forall le enc m d s len, 0 <= len -> mem_ok m ->
  exists m', cvt_gnuhash le enc m d s len = Ok m' /\
    (forall x, ~ (d <= x < d + len) -> m' x = m x).
Proof.
  intros le enc m d s len Hl Hm. unfold cvt_gnuhash.
  destruct (gh_safe 4 4 len m d s 0 ltac:(lia)) as (m1 & e1 & X1 & B1 & F1). rewrite X1. cbn [obind].
  destruct e1; [eauto|].
  set (bm := rd32 le m1 _).
  destruct (gh_safe (Z.to_nat (Z.min bm (len + 1))) 8 len m1 d s 16 ltac:(lia)) as (m2 & e2 & X2 & B2 & F2).
  rewrite X2. cbn [obind].
  assert (F12 : forall x, ~ (d <= x < d + len) -> m2 x = m x) by (intros x Hx; rewrite F2, F1 by exact Hx; reflexivity).
  destruct e2; [eauto|].
  assert (M1 : mem_ok m1).
  { clear - X1 Hm. revert X1. generalize 0. generalize 4%nat at 1. intros n.
    revert m Hm. induction n; intros m Hm z X1; cbn [gh_words] in X1.
    - injection X1 as <-. exact Hm.
    - destruct (len - z <? Z.of_nat 4); [discriminate|]. unfold chk in X1.
      destruct (inside len z (Z.of_nat 4)); [|discriminate].
      apply IHn in X1; [exact X1|]. apply wrm_ok; [exact Hm|]. apply Forall_rev. now apply rdm_ok. }
  assert (0 <= bm) by (unfold bm; apply rd32_range; exact M1).
  destruct (gh_safe (S (Z.to_nat len)) 4 len m2 d s (16 + 8 * bm) ltac:(lia)) as (m3 & e3 & X3 & B3 & F3).
  rewrite X3. cbn [obind]. exists m3. split; [reflexivity|]. intros x Hx. rewrite F3 by exact Hx. auto.
Qed.


Lemma total_gnuhash : forall nb nw, total (gnuhash_widths nb nw) = (16 + nb * 8 + nw * 4)%nat.
Proof. intros. unfold gnuhash_widths. rewrite !total_app, !total_repeat. lia. Qed.

Lemma gnuhash_field8 : forall nb nw, field_at (gnuhash_widths nb nw) 8.
Proof.
  intros. exists [4;4]%nat, ([4%nat] ++ repeat 8%nat nb ++ repeat 4%nat nw). split; reflexivity.
Qed.

Lemma cvt_gnuhash_ok : forall le (enc : bool) m d s len b nb nw,
  disj d s len \/ (d = s /\ enc = false) -> gnuhash_ok le b nb nw -> len = zlen b ->
  rdm m s (Z.to_nat len) = (if enc then b else swap_widths (gnuhash_widths nb nw) b) ->
  exists m', cvt_gnuhash le enc m d s len = Ok m' /\
    rdm m' d (Z.to_nat len) = (if enc then swap_widths (gnuhash_widths nb nw) b else b) /\
    (forall x, ~ (d <= x < d + len) -> m' x = m x).
Proof.
  intros le enc m d s len b nb nw Hd [Lb Wb] -> Hs. set (ws := gnuhash_widths nb nw) in *.
  assert (Lb' : length b = total ws) by (unfold zlen in Lb; lia).
  assert (Nb : Z.to_nat (zlen b) = total ws) by lia.
  rewrite Nb in *.
  pose proof (total_gnuhash nb nw) as T. fold ws in T.
  set (X := if enc then b else swap_widths ws b) in *.
  assert (EY : (if enc then swap_widths ws b else b) = swap_widths ws X).
  { unfold X. destruct enc; [reflexivity|]. symmetry. apply swap_widths_invol. lia. }
  rewrite EY. clear EY. unfold cvt_gnuhash.
  assert (Hd' : d <= s \/ s + zlen b <= d) by (unfold disj in Hd; lia).
  destruct (gh_ok 4 4 4 (zlen b) m d s 0) as (m1 & E1 & R1 & F1); [lia|lia|exact Hd'|lia|left; reflexivity|].
  rewrite E1. cbn [obind]. change (4 <? 4)%nat with false. cbn iota.
  change (4 * 4)%nat with 16%nat in *. rewrite !Z.add_0_r in *.
  (* the bitmask size *)
  assert (BM : rd32 le m1 ((if enc then s else d) + 8) = Z.of_nat nb).
  { rewrite <- Wb. unfold rd32, word32, host. destruct enc.
    - assert (E : rdm m1 (s + 8) 4 = zsub b 8 4).
      { rewrite (rdm_ext m1 m) by (intros x Hx; apply F1; destruct Hd as [Hd|[_ ?]]; [unfold disj in Hd; lia|discriminate]).
        change b with X. rewrite <- Hs. rewrite zsub_rdm by lia. reflexivity. }
      rewrite E. reflexivity.
    - assert (E : rdm m1 (d + 8) 4 = zsub b 8 4).
      { assert (zsub (rdm m1 d 16) 8 4 = rdm m1 (d + 8) 4) as <- by (rewrite zsub_rdm by lia; reflexivity).
        rewrite R1.
        assert (Q : rdm m s 16 = firstn 16 X).
        { rewrite <- Hs, firstn_rdm by lia. reflexivity. }
        rewrite Q.
        assert (Q2 : firstn 16 X = swap_widths (repeat 4%nat 4) (firstn 16 b)).
        { unfold X, ws, gnuhash_widths. rewrite swap_widths_app_ws by (change (total (repeat 4%nat 4)) with 16%nat; lia).
          change (total (repeat 4%nat 4)) with 16%nat. apply firstn_exact.
          rewrite swap_widths_len, firstn_length. lia. }
        rewrite Q2, swap_widths_invol by (rewrite firstn_length; change (total (repeat 4%nat 4)) with 16%nat; lia).
        unfold zsub. change (Z.to_nat 8) with 8%nat. change (Z.to_nat 4) with 4%nat.
        rewrite skipn_firstn_comm, firstn_firstn. reflexivity. }
      rewrite E. reflexivity. }
  rewrite BM. replace (Z.to_nat (Z.min (Z.of_nat nb) (zlen b + 1))) with nb by lia.
  destruct (gh_ok nb nb 8 (zlen b) m1 d s 16) as (m2 & E2 & R2 & F2); [lia|lia|exact Hd'|lia|left; reflexivity|].
  rewrite E2. cbn [obind]. rewrite Nat.ltb_irrefl. cbn iota.
  destruct (gh_ok nw (S (Z.to_nat (zlen b))) 4 (zlen b) m2 d s (16 + 8 * Z.of_nat nb)) as (m3 & E3 & R3 & F3);
    [lia|lia|exact Hd'|lia|right; lia|].
  rewrite E3. cbn [obind]. exists m3. split; [reflexivity|]. split.
  - rewrite T. replace (16 + nb * 8 + nw * 4)%nat with (16 + (nb * 8 + nw * 4))%nat by lia.
    rewrite !rdm_app. unfold ws, gnuhash_widths.
    assert (LX : length X = total ws) by (unfold X; destruct enc; [|rewrite swap_widths_len]; exact Lb').
    rewrite swap_widths_app_ws by (change (total (repeat 4%nat 4)) with 16%nat; lia).
    change (total (repeat 4%nat 4)) with 16%nat.
    rewrite swap_widths_app_ws by (rewrite total_repeat, skipn_length; lia).
    rewrite total_repeat. rewrite <- Hs.
    rewrite firstn_rdm, skipn_rdm by lia. change (Z.of_nat 16) with 16.
    rewrite firstn_rdm, skipn_rdm by lia.
    replace (total ws - 16 - nb * 8)%nat with (nw * 4)%nat by lia.
    replace (d + 16 + Z.of_nat (nb * 8)) with (d + (16 + 8 * Z.of_nat nb)) by lia.
    replace (s + 16 + Z.of_nat (nb * 8)) with (s + (16 + 8 * Z.of_nat nb)) by lia.
    apply (f_equal2 (@app Z)); [|apply (f_equal2 (@app Z))].
    + rewrite <- R1. apply rdm_ext. intros x Hx. rewrite F3, F2 by lia. reflexivity.
    + rewrite (rdm_ext m3 m2) by (intros x Hx; apply F3; lia). rewrite R2.
      f_equal. apply rdm_ext. intros x Hx. apply F1. unfold disj in Hd. lia.
    + rewrite R3. f_equal. apply rdm_ext. intros x Hx.
      rewrite F2, F1 by (unfold disj in Hd; lia). reflexivity.
  - intros x Hx. rewrite F3, F2, F1 by lia. reflexivity.
Qed.
