(* Proofs about XlateModel: symbol version sections. *)
From Verif Require Import Base ElfErr XlateModel XlateSpec XlateProof XlateNoteProof.

(* The model's record descriptions agree with the specification's. *)
Definition field_at (ws : list nat) (o : Z) : Prop :=
  exists w1 w2, ws = w1 ++ [4%nat] ++ w2 /\ o = Z.of_nat (total w1).
Record kind_ok (k : verkind) (v : verlay) : Prop := {
  ko_c : contig 0 (vk_fs k) = true; ko_w : widths_of (vk_fs k) = vl_ws v;
  ko_sz : vk_sz k = Z.of_nat (total (vl_ws v));
  ko_aux : vk_aux k = vl_aux v; ko_next : vk_next k = vl_next v;
  ko_fa : field_at (vl_ws v) (vl_aux v); ko_fn : field_at (vl_ws v) (vl_next v);
  ko_ac : contig 0 (vk_afs k) = true; ko_aw : widths_of (vk_afs k) = vl_aws v;
  ko_asz : vk_asz k = Z.of_nat (total (vl_aws v));
  ko_anext : vk_anext k = vl_anext v; ko_fan : field_at (vl_aws v) (vl_anext v) }.

Lemma kind_def : kind_ok vk_def vl_def.
Proof.
  constructor; try reflexivity.
  - exists [2;2;2;2;4]%nat, [4]%nat. split; reflexivity.
  - exists [2;2;2;2;4;4]%nat, []. split; reflexivity.
  - exists [4]%nat, []. split; reflexivity.
Qed.
Lemma kind_need : kind_ok vk_need vl_need.
Proof.
  constructor; try reflexivity.
  - exists [2;2;4]%nat, [4]%nat. split; reflexivity.
  - exists [2;2;4;4]%nat, []. split; reflexivity.
  - exists [4;2;2;4]%nat, []. split; reflexivity.
Qed.

Lemma field_at_range : forall ws o, field_at ws o -> 0 <= o /\ o + 4 <= Z.of_nat (total ws).
Proof.
  intros ws o (w1 & w2 & -> & ->). rewrite !total_app. cbn [total fold_right]. lia.
Qed.

Lemma swap_field : forall ws o b, field_at ws o -> length b = total ws ->
  zsub (swap_widths ws b) o 4 = rev (zsub b o 4).
Proof.
  intros ws o b (w1 & w2 & -> & ->) L. unfold zsub. rewrite Nat2Z.id. change (Z.to_nat 4) with 4%nat.
  rewrite !total_app in L. cbn [total fold_right] in L.
  rewrite swap_widths_app_ws by lia.
  rewrite skipn_exact by (rewrite swap_widths_len, firstn_length; lia).
  change (swap_widths ([4%nat] ++ w2) (skipn (total w1) b))
    with (rev (firstn 4 (skipn (total w1) b)) ++ swap_widths w2 (skipn 4 (skipn (total w1) b))).
  rewrite firstn_exact; [reflexivity|]. rewrite rev_length, firstn_length, skipn_length. lia.
Qed.

Lemma rec_field : forall fs ws o m d s, contig 0 fs = true -> widths_of fs = ws -> field_at ws o ->
  (d <= s \/ s + Z.of_nat (total ws) <= d) ->
  rdm (cvt_rec fs m d s) (d + o) 4 = rev (rdm m (s + o) 4).
Proof.
  intros fs ws o m d s C W Fa H. subst ws. destruct (cvt_rec_ok fs m d s C H) as [R _].
  pose proof (field_at_range _ _ Fa) as B.
  pose proof (swap_field _ o (rdm m s (total (widths_of fs))) Fa ltac:(apply rdm_len)) as P.
  rewrite <- R in P. rewrite !zsub_rdm in P by lia. exact P.
Qed.

(* ------------------------------------------------------------------ *)
(* Zero words. *)
Lemma le_value_zero : forall b, bytes_ok b -> (le_value b = 0 <-> Forall (fun x => x = 0) b).
Proof.
  induction b as [|x b IH]; intros H; cbn [le_value]; [split; auto|].
  pose proof (Forall_inv H) as Hx. pose proof (Forall_inv_tail H) as Hb.
  pose proof (le_value_bound b Hb). unfold is_u8 in Hx. split; intros E.
  - constructor; [lia|]. apply IH; [exact Hb|lia].
  - pose proof (Forall_inv E) as E1. cbn beta in E1. pose proof (Forall_inv_tail E) as E2. apply IH in E2; [lia|exact Hb].
Qed.

Lemma host_zero : forall le b, bytes_ok b -> (host le b = 0 <-> Forall (fun x => x = 0) b).
Proof.
  intros le b H. unfold host, be_value. destruct le; [now apply le_value_zero|].
  rewrite le_value_zero by (apply Forall_rev; exact H). split; intros E.
  - rewrite <- (rev_involutive b). now apply Forall_rev.
  - now apply Forall_rev.
Qed.

Lemma host_zero_rev : forall le b, bytes_ok b -> (host le (rev b) = 0 <-> host le b = 0).
Proof.
  intros le b H. rewrite !host_zero; [|exact H|apply Forall_rev; exact H].
  split; intros E; [rewrite <- (rev_involutive b)|]; now apply Forall_rev.
Qed.

Lemma wrm_ok : forall m a b, mem_ok m -> bytes_ok b -> mem_ok (wrm m a b).
Proof.
  intros m a b Hm Hb x. unfold wrm. destruct ((a <=? x) && (x <? a + zlen b)) eqn:E; [|apply Hm].
  unfold bytes_ok in Hb. rewrite Forall_forall in Hb. apply Hb. apply nth_In. unfold zlen in E. lia.
Qed.

Lemma cvt_rec_mem_ok : forall fs m d s, mem_ok m -> mem_ok (cvt_rec fs m d s).
Proof.
  unfold cvt_rec. induction fs as [|f fs IH]; intros m d s H; [exact H|]. cbn [fold_left].
  apply IH. unfold cvt_fld. apply wrm_ok; [exact H|].
  destruct (f_swp f); [apply Forall_rev|]; apply rdm_ok; exact H.
Qed.

Lemma memmove_mem_ok : forall m d s n, mem_ok m -> mem_ok (memmove m d s n).
Proof. intros. apply wrm_ok; [assumption|]. now apply rdm_ok. Qed.

Lemma rd32_range : forall le m a, mem_ok m -> 0 <= rd32 le m a < two32.
Proof. intros. apply host_range; [now apply rdm_ok|apply rdm_len]. Qed.

(* ------------------------------------------------------------------ *)
(* Arbitrary content: the walk stays inside and ends. *)
Section Safe.
  Variables (k : verkind) (v : verlay) (le enc : bool) (d s len : Z).
  Hypothesis K : kind_ok k v.
  Hypothesis Hlen : 0 <= len < 2 ^ 62.
  Hypothesis Hmode : d = s \/ disj d s len.

  Lemma fwd_at : forall o n, 0 <= o -> 0 <= n -> o + n <= len ->
    d + o <= s + o \/ s + o + n <= d + o.
  Proof. intros o n Ho Hn H. unfold disj in Hmode. lia. Qed.

  Lemma rec_frame : forall fs ws m o, contig 0 fs = true -> widths_of fs = ws ->
    0 <= o -> o + Z.of_nat (total ws) <= len ->
    forall x, ~ (d + o <= x < d + o + Z.of_nat (total ws)) -> cvt_rec fs m (d + o) (s + o) x = m x.
  Proof.
    intros fs ws m o C W H1 H2. subst ws.
    destruct (cvt_rec_ok fs m (d + o) (s + o) C) as [_ F]; [apply fwd_at; lia|exact F].
  Qed.

  (* the word tested after converting a record is zero iff the source word was *)
  Lemma src_zero : forall fs ws q m o, contig 0 fs = true -> widths_of fs = ws -> field_at ws q ->
    mem_ok m -> 0 <= o -> o + Z.of_nat (total ws) <= len ->
    (rd32 le (cvt_rec fs m (d + o) (s + o)) (s + o + q) = 0 <-> rd32 le m (s + o + q) = 0).
  Proof.
    intros fs ws q m o C W Fa Hm H1 H2. pose proof (field_at_range _ _ Fa) as B.
    unfold rd32. destruct Hmode as [E|Dj].
    - subst d. rewrite (rec_field fs ws q m (s + o) (s + o) C W Fa) by lia.
      apply host_zero_rev. now apply rdm_ok.
    - rewrite (rdm_ext _ m); [reflexivity|]. intros x Hx. apply (rec_frame fs ws); auto.
      unfold disj in Dj. lia.
  Qed.
  Lemma dst_zero : forall fs ws q m o, contig 0 fs = true -> widths_of fs = ws -> field_at ws q ->
    mem_ok m -> 0 <= o -> o + Z.of_nat (total ws) <= len ->
    (rd32 le (cvt_rec fs m (d + o) (s + o)) (d + o + q) = 0 <-> rd32 le m (s + o + q) = 0).
  Proof.
    intros fs ws q m o C W Fa Hm H1 H2.
    unfold rd32. rewrite (rec_field fs ws q m (d + o) (s + o) C W Fa) by (apply fwd_at; lia).
    apply host_zero_rev. now apply rdm_ok.
  Qed.

  Lemma ver_aux_safe : forall fuel (m : mem) ao, mem_ok m -> 0 <= ao -> (Z.to_nat (len - ao) < fuel)%nat ->
    exists m' e, ver_aux fuel k le enc len m d s ao = Ok (m', e) /\ mem_ok m' /\
      (forall x, ~ (d <= x < d + len) -> m' x = m x).
  Proof.
    induction fuel as [|fuel IH]; intros m ao Hm Ha Hf; [lia|].
    cbn [ver_aux]. destruct ((len <? ao) || (len - ao <? vk_asz k)) eqn:G.
    { exists m, true. split; [reflexivity|]. split; auto. }
    pose proof (ko_asz _ _ K) as Esz. pose proof (field_at_range _ _ (ko_fan _ _ K)) as Bf.
    rewrite <- (ko_anext _ _ K) in Bf.
    unfold chk. replace (inside len ao (vk_asz k)) with true by (unfold inside; lia).
    set (m1 := cvt_rec (vk_afs k) m (d + ao) (s + ao)).
    assert (M1 : mem_ok m1) by (apply cvt_rec_mem_ok; exact Hm).
    assert (F1 : forall x, ~ (d + ao <= x < d + ao + Z.of_nat (total (vl_aws v))) -> m1 x = m x).
    { apply rec_frame; [apply (ko_ac _ _ K)|apply (ko_aw _ _ K)|lia|lia]. }
    pose proof (src_zero (vk_afs k) (vl_aws v) (vl_anext v) m ao (ko_ac _ _ K) (ko_aw _ _ K) (ko_fan _ _ K) Hm Ha
      ltac:(lia)) as SZ.
    pose proof (dst_zero (vk_afs k) (vl_aws v) (vl_anext v) m ao (ko_ac _ _ K) (ko_aw _ _ K) (ko_fan _ _ K) Hm Ha
      ltac:(lia)) as DZ.
    fold m1 in SZ, DZ. rewrite <- (ko_anext _ _ K) in SZ, DZ.
    set (t := rd32 le m1 (s + ao + vk_anext k)) in *.
    destruct (t =? 0) eqn:T.
    { exists m1, false. split; [reflexivity|]. split; [exact M1|]. intros; apply F1; lia. }
    pose proof (rd32_range le m (s + ao + vk_anext k) Hm) as B1.
    pose proof (rd32_range le m1 (d + ao + vk_anext k) M1) as B2.
    assert (T0 : rd32 le m (s + ao + vk_anext k) <> 0) by (rewrite <- SZ; lia).
    assert (T1 : rd32 le m1 (d + ao + vk_anext k) <> 0) by (rewrite DZ; exact T0).
    set (ao2 := if enc then _ else _).
    assert (A2 : ao < ao2 < two64).
    { unfold ao2, u64. destruct enc; rewrite Z.mod_small; lia. }
    destruct (IH m1 ao2 M1) as (m' & e & X & M' & F); [lia|lia|].
    exists m', e. split; [exact X|]. split; [exact M'|]. intros x Hx. rewrite F by lia. apply F1. lia.
  Qed.

  Lemma ver_aux_fuel : forall fuel (m : mem) ao, mem_ok m -> 0 <= ao -> (Z.to_nat (len - ao) < fuel)%nat ->
    exists m' e, ver_aux fuel k le enc len m d s ao = Ok (m', e) /\ mem_ok m' /\
      (forall x, ~ (d <= x < d + len) -> m' x = m x).
  Proof. exact ver_aux_safe. Qed.

  Hypothesis Hprog : enc = true \/ d = s.

  Lemma ver_defs_safe : forall fuel (m : mem) off, mem_ok m -> 0 <= off -> (Z.to_nat (len - off) < fuel)%nat ->
    exists m', ver_defs fuel k le enc len m d s off = Ok m' /\ mem_ok m' /\
      (forall x, ~ (d <= x < d + len) -> m' x = m x).
  Proof.
    induction fuel as [|fuel IH]; intros m off Hm Ho Hf; [lia|].
    cbn [ver_defs]. destruct ((len <? off) || (len - off <? vk_sz k)) eqn:G.
    { exists m. split; [reflexivity|]. split; auto. }
    pose proof (ko_sz _ _ K) as Esz. pose proof (field_at_range _ _ (ko_fn _ _ K)) as Bf.
    rewrite <- (ko_next _ _ K) in Bf.
    unfold chk. replace (inside len off (vk_sz k)) with true by (unfold inside; lia).
    set (m1 := if enc then m else cvt_rec (vk_fs k) m (d + off) (s + off)).
    assert (FR : forall m0 x, ~ (d + off <= x < d + off + Z.of_nat (total (vl_ws v))) ->
              cvt_rec (vk_fs k) m0 (d + off) (s + off) x = m0 x).
    { intros m0. apply rec_frame; [apply (ko_c _ _ K)|apply (ko_w _ _ K)|lia|lia]. }
    assert (M1 : mem_ok m1) by (unfold m1; destruct enc; [exact Hm|now apply cvt_rec_mem_ok]).
    assert (F1 : forall x, ~ (d <= x < d + len) -> m1 x = m x).
    { intros x Hx. unfold m1. destruct enc; [reflexivity|]. apply FR. lia. }
    set (ao := u64 _).
    assert (0 <= ao) by (unfold ao, u64; apply Z.mod_pos_bound; lia).
    destruct (ver_aux_safe (S (Z.to_nat len)) m1 ao M1) as (m2 & e & X & M2 & F2); [lia|lia|].
    rewrite X. cbn [obind]. destruct e.
    { exists m2. split; [reflexivity|]. split; [exact M2|]. intros x Hx. rewrite F2, F1 by lia. reflexivity. }
    set (m3 := if enc then cvt_rec (vk_fs k) m2 (d + off) (s + off) else m2).
    assert (M3 : mem_ok m3) by (unfold m3; destruct enc; [now apply cvt_rec_mem_ok|exact M2]).
    assert (F3 : forall x, ~ (d <= x < d + len) -> m3 x = m2 x).
    { intros x Hx. unfold m3. destruct enc; [|reflexivity]. apply FR. lia. }
    destruct (rd32 le m3 (s + off + vk_next k) =? 0) eqn:T.
    { exists m3. split; [reflexivity|]. split; [exact M3|]. intros x Hx. rewrite F3, F2, F1 by lia. reflexivity. }
    set (off1 := if enc then _ else _).
    assert (A2 : off < off1 < two64).
    { unfold off1, u64, m3 in *. destruct enc.
      - pose proof (rd32_range le m2 (s + off + vk_next k) M2).
        assert (rd32 le m2 (s + off + vk_next k) <> 0).
        { pose proof (src_zero (vk_fs k) (vl_ws v) (vl_next v) m2 off (ko_c _ _ K) (ko_w _ _ K) (ko_fn _ _ K) M2 Ho
            ltac:(lia)) as SZ. rewrite <- (ko_next _ _ K) in SZ. rewrite <- SZ. lia. }
        rewrite Z.mod_small; lia.
      - destruct Hprog as [?|Ed]; [discriminate|].
        pose proof (rd32_range le m2 (d + off + vk_next k) M2).
        rewrite <- Ed in T. rewrite Z.mod_small; lia. }
    destruct (IH m3 off1 M3) as (m' & Y & M' & F); [lia|lia|].
    exists m'. split; [exact Y|]. split; [exact M'|].
    intros x Hx. rewrite F, F3, F2, F1 by lia. reflexivity.
  Qed.
End Safe.

Lemma cvt_ver_safe : forall k v le enc m d s len,
  kind_ok k v -> 0 <= len < 2 ^ 62 -> mem_ok m ->
  d = s \/ (enc = true /\ disj d s len) ->
  exists m', cvt_ver k le enc m d s len = Ok m' /\
    (forall x, ~ (d <= x < d + len) -> m' x = m x).
Proof.
  intros k v le enc m d s len K Hl Hm Hd. unfold cvt_ver, cvt_ver_fuel.
  destruct (len =? 0) eqn:E; [eauto|].
  destruct (memmove_ok m d s len) as [_ F0]; [lia|].
  destruct (ver_defs_safe k v le enc d s len K Hl) with (fuel := S (Z.to_nat len)) (m := memmove m d s len) (off := 0)
    as (m' & X & _ & F); [tauto|tauto|now apply memmove_mem_ok|lia|lia|].
  exists m'. split; [exact X|]. intros x Hx. rewrite F, F0 by lia. reflexivity.
Qed.

(* ------------------------------------------------------------------ *)
(* Well-formed chains. *)
Definition bmem (b : bytes) : mem := fun x => nth (Z.to_nat x) b 0.

Lemma rdm_bmem : forall b o n, 0 <= o -> o + Z.of_nat n <= zlen b ->
  rdm (bmem b) o n = zsub b o (Z.of_nat n).
Proof.
  intros b o n Ho H. unfold zsub. rewrite Nat2Z.id. unfold zlen in H.
  apply (nth_ext _ _ 0 0).
  - rewrite rdm_len, firstn_length, skipn_length. lia.
  - intros i Hi. rewrite rdm_len in Hi. rewrite nth_rdm by exact Hi. unfold bmem.
    rewrite <- (firstn_skipn (Z.to_nat o) b) at 1.
    rewrite app_nth2 by (rewrite firstn_length; lia). rewrite firstn_length.
    replace (Z.to_nat (o + Z.of_nat i) - Nat.min (Z.to_nat o) (length b))%nat with i by lia.
    rewrite <- (firstn_skipn n (skipn (Z.to_nat o) b)) at 1.
    rewrite app_nth1 by (rewrite firstn_length, skipn_length; lia). reflexivity.
Qed.

Lemma rd32_bmem : forall le m a b o, 0 <= o -> o + 4 <= zlen b ->
  (forall x, o <= x < o + 4 -> m (a + x) = bmem b x) -> rd32 le m (a + o) = word32 le b o.
Proof.
  intros le m a b o Ho H E. unfold rd32, word32, host.
  assert (EQ : rdm m (a + o) 4 = zsub b o 4).
  { change 4 with (Z.of_nat 4). rewrite <- rdm_bmem by lia.
    unfold rdm. apply map_ext_in. intros i Hi. apply in_seq in Hi.
    replace (a + o + Z.of_nat i) with (a + (o + Z.of_nat i)) by lia. apply E. lia. }
  rewrite EQ. reflexivity.
Qed.

Lemma bytes_ok_zsub : forall b o n, bytes_ok b -> bytes_ok (zsub b o n).
Proof.
  intros b o n H. unfold bytes_ok, zsub in *. rewrite Forall_forall in *. intros x Hx. apply H.
  rewrite <- (firstn_skipn (Z.to_nat o) b). apply in_app_iff. right.
  rewrite <- (firstn_skipn (Z.to_nat n)). apply in_app_iff. left. exact Hx.
Qed.

Definition dj (p q : Z * list nat) : Prop := forall x, in_rec p x -> in_rec q x -> False.

Definition ximg (enc : bool) (x y : bytes) : bytes := if enc then x else y.
Lemma bool_tf : forall c : bool, c = true \/ c = false.
Proof. intros []; auto. Qed.
Ltac denc enc := destruct (bool_tf enc) as [Hc|Hc];
  repeat match goal with H : context [if enc then _ else _] |- _ => rewrite Hc in H end; rewrite ?Hc.

Section Chain.
  Variables (k : verkind) (v : verlay) (le enc : bool) (d s len : Z) (b f : bytes).
  Variable R : list (Z * list nat).
  Hypothesis K : kind_ok k v.
  Hypothesis Hlen : 0 <= len < 2 ^ 62.
  Hypothesis Hmode : d = s \/ disj d s len.
  Hypothesis Lb : zlen b = len.
  Hypothesis Lf : zlen f = len.
  Hypothesis Bb : bytes_ok b.
  Hypothesis Sw : forall r, In r R ->
     zsub f (fst r) (Z.of_nat (total (snd r)))
     = swap_widths (snd r) (zsub b (fst r) (Z.of_nat (total (snd r)))).
  Hypothesis Rin : forall r, In r R -> 0 <= fst r /\ fst r + Z.of_nat (total (snd r)) <= len.

  Local Notation X := (ximg enc b f).
  Local Notation Y := (ximg enc f b).

  Lemma LX : zlen X = len. Proof. unfold ximg; denc enc; assumption. Qed.
  Lemma LY : zlen Y = len. Proof. unfold ximg; denc enc; assumption. Qed.

  Lemma SwXY : forall r, In r R ->
     zsub Y (fst r) (Z.of_nat (total (snd r)))
     = swap_widths (snd r) (zsub X (fst r) (Z.of_nat (total (snd r)))).
  Proof.
    intros r Hr. pose proof (Sw r Hr) as E. destruct (Rin r Hr) as [R1 R2].
    unfold ximg. denc enc; [exact E|]. rewrite E. symmetry. apply swap_widths_invol.
    pose proof (zsub_length _ b (fst r) (Z.of_nat (total (snd r))) ltac:(lia) ltac:(lia) ltac:(lia)) as Q.
    unfold zlen in Q. lia.
  Qed.

  (* P: the records converted so far. *)
  Definition Inv (P : list (Z * list nat)) (m : mem) : Prop :=
    (forall x, 0 <= x < len -> (exists r, In r P /\ in_rec r x) -> m (d + x) = bmem Y x) /\
    (forall x, 0 <= x < len -> (forall r, In r P -> ~ in_rec r x) -> m (d + x) = bmem X x) /\
    (disj d s len -> forall x, 0 <= x < len -> m (s + x) = bmem X x).

  Lemma src_unproc : forall P m r, Inv P m -> In r R -> (forall p, In p P -> dj r p) ->
    forall x, in_rec r x -> m (s + x) = bmem X x.
  Proof.
    intros P m r (I1 & I2 & I3) Hr Hd x Hx. destruct (Rin r Hr) as [R1 R2]. unfold in_rec in Hx.
    destruct Hmode as [E|Dj]; [|apply I3; [exact Dj|lia]].
    rewrite <- E. apply I2; [lia|]. intros p Hp Hpx. exact (Hd p Hp x Hx Hpx).
  Qed.
  Lemma dst_proc : forall P m r, Inv P m -> In r R -> In r P ->
    forall x, in_rec r x -> m (d + x) = bmem Y x.
  Proof.
    intros P m r (I1 & I2 & I3) Hr Hp x Hx. destruct (Rin r Hr) as [R1 R2]. apply I1; [unfold in_rec in Hx; lia|eauto].
  Qed.

  Lemma step_rec : forall P m fs o ws, contig 0 fs = true -> widths_of fs = ws ->
    Inv P m -> In (o, ws) R -> (forall p, In p P -> dj (o, ws) p) ->
    let m1 := cvt_rec fs m (d + o) (s + o) in
    Inv ((o, ws) :: P) m1 /\ (forall x, ~ (d <= x < d + len) -> m1 x = m x).
  Proof.
    intros P m fs o ws C W I Hr Hd m1. destruct (Rin _ Hr) as [R1 R2]. cbn [fst snd] in R1, R2.
    subst ws. set (T := total (widths_of fs)) in *.
    destruct (cvt_rec_ok fs m (d + o) (s + o) C) as [Rr F].
    { fold T. unfold disj in Hmode. lia. }
    fold T in Rr, F. fold m1 in Rr, F.
    assert (Es : rdm m (s + o) T = zsub X o (Z.of_nat T)).
    { rewrite <- rdm_bmem by (try rewrite LX; lia). unfold rdm. apply map_ext_in. intros i Hi. apply in_seq in Hi.
      replace (s + o + Z.of_nat i) with (s + (o + Z.of_nat i)) by lia.
      apply (src_unproc P m _ I Hr Hd). unfold in_rec. cbn [fst snd]. fold T. lia. }
    assert (Er : rdm m1 (d + o) T = rdm (bmem Y) o T).
    { rewrite Rr, Es. rewrite rdm_bmem by (try rewrite LY; lia). symmetry.
      exact (SwXY _ Hr). }
    assert (V : forall x, o <= x < o + Z.of_nat T -> m1 (d + x) = bmem Y x).
    { intros x Hx. pose proof (nth_rdm T m1 (d + o) (Z.to_nat (x - o)) ltac:(lia)) as N1.
      rewrite Er, nth_rdm in N1 by lia.
      replace (o + Z.of_nat (Z.to_nat (x - o))) with x in N1 by lia.
      replace (d + o + Z.of_nat (Z.to_nat (x - o))) with (d + x) in N1 by lia. symmetry. exact N1. }
    destruct I as (I1 & I2 & I3). split; [split; [|split]|].
    - intros x Hx (r & [<-|Hp] & Hi).
      + apply V. exact Hi.
      + rewrite F; [apply I1; eauto|]. intros Hc. apply (Hd r Hp x); [unfold in_rec; cbn [fst snd]; fold T; lia|exact Hi].
    - intros x Hx Hn. rewrite F.
      + apply I2; [exact Hx|]. intros r Hr'. apply Hn. right. exact Hr'.
      + intros Hc. apply (Hn _ (or_introl eq_refl)). unfold in_rec. cbn [fst snd]. fold T. lia.
    - intros Dj x Hx. rewrite F; [apply I3; assumption|]. unfold disj in Dj. lia.
    - intros x Hx. apply F. lia.
  Qed.

  Lemma word_b : forall a m r q, In r R -> field_at (snd r) q ->
    (forall x, in_rec r x -> m (a + x) = bmem b x) ->
    rd32 le m (a + fst r + q) = word32 le b (fst r + q).
  Proof.
    intros a m r q Hr Fa E. destruct (Rin _ Hr). pose proof (field_at_range _ _ Fa).
    rewrite <- Z.add_assoc. apply rd32_bmem; [lia|rewrite Lb; lia|].
    intros x Hx. apply E. unfold in_rec. lia.
  Qed.

  (* a word of the swapped image is zero iff that of the plain one is *)
  Lemma word_f_zero : forall a m r q, In r R -> field_at (snd r) q ->
    (forall x, in_rec r x -> m (a + x) = bmem f x) ->
    (rd32 le m (a + fst r + q) = 0 <-> word32 le b (fst r + q) = 0).
  Proof.
    intros a m r q Hr Fa E. destruct (Rin _ Hr). pose proof (field_at_range _ _ Fa).
    rewrite <- Z.add_assoc. rewrite (rd32_bmem le m a f) by (try rewrite Lf; try lia; intros; apply E; unfold in_rec; lia).
    pose proof (Sw r Hr) as S0. set (T := total (snd r)) in *. set (o := fst r) in *.
    assert (L0 : length (zsub b o (Z.of_nat T)) = T).
    { pose proof (zsub_length _ b o (Z.of_nat T) ltac:(lia) ltac:(lia) ltac:(lia)) as Q. unfold zlen in Q. lia. }
    pose proof (swap_field (snd r) q _ Fa L0) as P. rewrite <- S0 in P.
    assert (ZZ : forall g : bytes, zlen g = len -> zsub (zsub g o (Z.of_nat T)) q 4 = zsub g (o + q) 4).
    { intros g Lg. rewrite <- rdm_bmem by lia. rewrite zsub_rdm by lia.
      change (Z.to_nat 4) with 4%nat. rewrite rdm_bmem by lia. reflexivity. }
    rewrite !ZZ in P by assumption.
    unfold word32. fold (host le (zsub f (o + q) 4)). fold (host le (zsub b (o + q) 4)). rewrite P.
    apply host_zero_rev. apply bytes_ok_zsub. exact Bb.
  Qed.

  Lemma chain_aux : forall auxs fuel m ao P,
    aux_chain v le b ao auxs -> Inv P m ->
    (forall o, In o auxs -> In (o, vl_aws v) R) ->
    (forall o p, In o auxs -> In p P -> dj (o, vl_aws v) p) ->
    ForallOrdPairs dj (map (fun o => (o, vl_aws v)) auxs) ->
    (Z.to_nat (len - ao) < fuel)%nat ->
    exists m', ver_aux fuel k le enc len m d s ao = Ok (m', false) /\
      Inv (map (fun o => (o, vl_aws v)) auxs ++ P) m' /\
      (forall x, ~ (d <= x < d + len) -> m' x = m x).
  Proof.
    induction auxs as [|o auxs IH]; intros fuel m ao P HC I HR HD HO Hf; [destruct HC|].
    cbn [aux_chain] in HC. destruct HC as (-> & Ha & Hb & HC).
    destruct fuel as [|fuel]; [lia|]. cbn [ver_aux].
    pose proof (ko_asz _ _ K) as Esz. rewrite Lb in Hb.
    replace ((len <? ao) || (len - ao <? vk_asz k)) with false by lia.
    unfold chk. replace (inside len ao (vk_asz k)) with true by (unfold inside; lia).
    set (r := (ao, vl_aws v)).
    assert (Hr : In r R) by (apply HR; left; reflexivity).
    assert (Hd : forall p, In p P -> dj r p) by (intros p; apply HD; left; reflexivity).
    destruct (step_rec P m (vk_afs k) ao (vl_aws v) (ko_ac _ _ K) (ko_aw _ _ K) I Hr Hd) as [I1 F1].
    set (m1 := cvt_rec (vk_afs k) m (d + ao) (s + ao)) in *.
    rewrite (ko_anext _ _ K).
    set (nx := word32 le b (ao + vl_anext v)) in *.
    (* the distance read is the plain image's word *)
    assert (V : (if enc then rd32 le m (s + ao + vl_anext v) else rd32 le m1 (d + ao + vl_anext v)) = nx).
    { pose proof (src_unproc P m r I Hr Hd) as Su.
      pose proof (dst_proc (r :: P) m1 r I1 Hr ltac:(left; reflexivity)) as Du.
      unfold ximg in Su, Du. denc enc.
      - exact (word_b s m r (vl_anext v) Hr (ko_fan _ _ K) Su).
      - exact (word_b d m1 r (vl_anext v) Hr (ko_fan _ _ K) Du). }
    assert (Z0 : rd32 le m1 (s + ao + vl_anext v) = 0 <-> nx = 0).
    { destruct Hmode as [E|Dj].
      - pose proof (dst_proc (r :: P) m1 r I1 Hr ltac:(left; reflexivity)) as Du.
        rewrite E in Du. unfold ximg in Du. denc enc.
        + exact (word_f_zero s m1 r (vl_anext v) Hr (ko_fan _ _ K) Du).
        + assert (W : rd32 le m1 (s + ao + vl_anext v) = nx) by exact (word_b s m1 r (vl_anext v) Hr (ko_fan _ _ K) Du). rewrite W. reflexivity.
      - assert (Su : forall x, in_rec r x -> m1 (s + x) = bmem X x).
        { intros x Hx. destruct I1 as (_ & _ & I3). apply I3; [exact Dj|]. unfold in_rec in Hx. cbn [fst snd r] in Hx. lia. }
        unfold ximg in Su. denc enc.
        + assert (W : rd32 le m1 (s + ao + vl_anext v) = nx) by exact (word_b s m1 r (vl_anext v) Hr (ko_fan _ _ K) Su). rewrite W. reflexivity.
        + exact (word_f_zero s m1 r (vl_anext v) Hr (ko_fan _ _ K) Su). }
    destruct auxs as [|o2 auxs].
    - replace (rd32 le m1 (s + ao + vl_anext v) =? 0) with true by lia.
      exists m1. split; [reflexivity|]. split; [exact I1|exact F1].
    - destruct HC as [Hnz HC].
      replace (rd32 le m1 (s + ao + vl_anext v) =? 0) with false by lia.
      set (ao2 := if enc then _ else _).
      assert (0 <= nx < two32).
      { unfold nx, word32. fold (host le (zsub b (ao + vl_anext v) 4)).
        pose proof (field_at_range _ _ (ko_fan _ _ K)).
        apply host_range; [apply bytes_ok_zsub; exact Bb|].
        pose proof (zsub_length _ b (ao + vl_anext v) 4 ltac:(lia) ltac:(lia) ltac:(lia)) as Q. unfold zlen in Q. lia. }
      assert (A2 : ao2 = ao + nx).
      { unfold ao2, u64. denc enc; rewrite V, Z.mod_small; lia. }
      rewrite A2. inversion HO as [|? ? HO1 HO2]; subst.
      destruct (IH fuel m1 (ao + nx) (r :: P) HC I1) as (m' & E' & I' & F').
      + intros o Ho. apply HR. right. exact Ho.
      + intros o p Ho [<-|Hp].
        * rewrite Forall_forall in HO1. intros x Hx1 Hx2.
          apply (HO1 (o, vl_aws v)) with x; [|exact Hx2|exact Hx1].
          exact (in_map (fun o => (o, vl_aws v)) (o2 :: auxs) o Ho).
        * apply HD; [right; exact Ho|exact Hp].
      + exact HO2.
      + pose proof (field_at_range _ _ (ko_fan _ _ K)). assert (nx <> 0) by exact Hnz. lia.
      + exists m'. split; [exact E'|]. split.
        * destruct I' as (J1 & J2 & J3). split; [|split]; [| |exact J3].
          -- intros x Hx (q & Hq & Hi). apply J1; [exact Hx|]. exists q. split; [|exact Hi].
             apply in_app_iff. apply in_app_iff in Hq. cbn [map In] in Hq |- *. fold r in Hq. tauto.
          -- intros x Hx Hn. apply J2; [exact Hx|]. intros q Hq. apply Hn.
             apply in_app_iff. apply in_app_iff in Hq. cbn [map In] in Hq |- *. fold r. tauto.
        * intros x Hx. rewrite F', F1 by lia. reflexivity.
  Qed.

  Lemma inv_incl : forall P Q m, (forall r, In r P <-> In r Q) -> Inv P m -> Inv Q m.
  Proof.
    intros P Q m E (J1 & J2 & J3). split; [|split]; [| |exact J3].
    - intros x Hx (q & Hq & Hi). apply J1; [exact Hx|]. exists q. split; [now apply E|exact Hi].
    - intros x Hx Hn. apply J2; [exact Hx|]. intros q Hq. apply Hn. now apply E.
  Qed.

  Lemma fop_app : forall A (Q : A -> A -> Prop) l1 l2, ForallOrdPairs Q (l1 ++ l2) ->
    ForallOrdPairs Q l1 /\ ForallOrdPairs Q l2 /\ (forall x y, In x l1 -> In y l2 -> Q x y).
  Proof.
    induction l1 as [|a l1 IH]; intros l2 H; cbn [app] in H.
    - split; [constructor|]. split; [exact H|]. intros x y [].
    - inversion H as [|? ? H1 H2]; subst. destruct (IH l2 H2) as (A1 & A2 & A3).
      apply Forall_app in H1 as [H3 H4]. split; [constructor; assumption|]. split; [exact A2|].
      intros x y [<-|Hx] Hy; [|apply A3; assumption]. rewrite Forall_forall in H4. auto.
  Qed.

  Lemma chain_defs : forall defs fuel m off P,
    def_chain v le b off defs -> Inv P m ->
    (forall r, In r (chain_records v defs) -> In r R) ->
    (forall r p, In r (chain_records v defs) -> In p P -> dj r p) ->
    recs_disjoint (chain_records v defs) ->
    (Z.to_nat (len - off) < fuel)%nat ->
    exists m', ver_defs fuel k le enc len m d s off = Ok m' /\
      Inv (chain_records v defs ++ P) m' /\
      (forall x, ~ (d <= x < d + len) -> m' x = m x).
  Proof.
    induction defs as [|[o auxs] defs IH]; intros fuel m off P HC I HR HD HO Hf; [destruct HC|].
    cbn [def_chain] in HC. destruct HC as (-> & Ha & Hb & HA & HC).
    destruct fuel as [|fuel]; [lia|]. cbn [ver_defs].
    pose proof (ko_sz _ _ K) as Esz. rewrite Lb in Hb.
    replace ((len <? off) || (len - off <? vk_sz k)) with false by lia.
    unfold chk. replace (inside len off (vk_sz k)) with true by (unfold inside; lia).
    set (r := (off, vl_ws v)). set (ar := map (fun ao => (ao, vl_aws v)) auxs).
    assert (ECR : chain_records v ((off, auxs) :: defs) = (r :: ar) ++ chain_records v defs) by reflexivity.
    rewrite ECR in HR, HD, HO |- *.
    apply fop_app in HO. destruct HO as (HO1 & HO2 & HO3).
    inversion HO1 as [|? ? HOr HOa]; subst. rewrite Forall_forall in HOr.
    assert (Hr : In r R) by (apply HR; left; reflexivity).
    assert (Hd : forall p, In p P -> dj r p) by (intros p; apply HD; left; reflexivity).
    assert (Har : forall o, In o auxs -> In (o, vl_aws v) ar) by (intros o Ho; exact (in_map (fun ao => (ao, vl_aws v)) auxs o Ho)).
    rewrite (ko_aux _ _ K), (ko_next _ _ K).
    set (m1 := if enc then m else cvt_rec (vk_fs k) m (d + off) (s + off)).
    set (P1 := if enc then P else r :: P).
    assert (S1 : Inv P1 m1 /\ (forall x, ~ (d <= x < d + len) -> m1 x = m x)).
    { unfold P1, m1. denc enc; [split; [exact I|reflexivity]|].
      apply (step_rec P m (vk_fs k) off (vl_ws v) (ko_c _ _ K) (ko_w _ _ K) I Hr Hd). }
    destruct S1 as [I1 F1].
    assert (WR : forall q, 0 <= q -> q + 4 <= len -> 0 <= word32 le b q < two32).
    { intros q Q1 Q2. unfold word32. fold (host le (zsub b q 4)).
      apply host_range; [apply bytes_ok_zsub; exact Bb|].
      pose proof (zsub_length _ b q 4 ltac:(lia) ltac:(lia) ltac:(lia)) as Q. unfold zlen in Q. lia. }
    pose proof (field_at_range _ _ (ko_fa _ _ K)) as BA. pose proof (field_at_range _ _ (ko_fn _ _ K)) as BN.
    pose proof (WR (off + vl_aux v) ltac:(lia) ltac:(lia)) as WA.
    pose proof (WR (off + vl_next v) ltac:(lia) ltac:(lia)) as WN.
    assert (VA : rd32 le m1 ((if enc then s else d) + off + vl_aux v) = word32 le b (off + vl_aux v)).
    { pose proof (src_unproc P m r I Hr Hd) as Su. unfold m1, P1, ximg in *. denc enc.
      - exact (word_b s m r (vl_aux v) Hr (ko_fa _ _ K) Su).
      - pose proof (dst_proc (r :: P) _ r I1 Hr ltac:(left; reflexivity)) as Du. unfold ximg in Du. rewrite ?Hc in Du.
        exact (word_b d _ r (vl_aux v) Hr (ko_fa _ _ K) Du). }
    rewrite VA. unfold u64 at 1. rewrite Z.mod_small by lia.
    destruct (chain_aux auxs (S (Z.to_nat len)) m1 (off + word32 le b (off + vl_aux v)) P1 HA I1) as (m2 & E2 & I2 & F2).
    { intros o Ho. apply HR. apply in_app_iff. left. right. now apply Har. }
    { intros o p Ho Hp. assert (In p P \/ p = r) as [Hq|Hq].
      { unfold P1 in Hp. denc enc; [left; exact Hp|]. destruct Hp as [Hp|Hp]; [right; symmetry; exact Hp|left; exact Hp]. }
      - apply HD; [|exact Hq]. apply in_app_iff. left. right. now apply Har.
      - subst p. intros x H1 H2. exact (HOr _ (Har o Ho) x H2 H1). }
    { exact HOa. }
    { lia. }
    rewrite E2. cbn [obind]. fold ar in I2.
    set (m3 := if enc then cvt_rec (vk_fs k) m2 (d + off) (s + off) else m2).
    assert (S3 : Inv ((r :: ar) ++ P) m3 /\ (forall x, ~ (d <= x < d + len) -> m3 x = m2 x)).
    { unfold m3, P1 in *. denc enc.
      - destruct (step_rec (ar ++ P) m2 (vk_fs k) off (vl_ws v) (ko_c _ _ K) (ko_w _ _ K) I2 Hr) as [J G].
        + intros p Hp. apply in_app_iff in Hp as [Hp|Hp]; [exact (HOr p Hp)|exact (Hd p Hp)].
        + split; [exact J|exact G].
      - split; [|reflexivity]. apply (inv_incl (ar ++ r :: P)); [|exact I2].
        intros q. cbn [app In]. rewrite !in_app_iff. cbn [In]. tauto. }
    destruct S3 as [I3 F3].
    assert (Hr3 : In r ((r :: ar) ++ P)) by (left; reflexivity).
    assert (VN : (if enc then rd32 le m2 (s + off + vl_next v) else rd32 le m2 (d + off + vl_next v))
                 = word32 le b (off + vl_next v)).
    { unfold m3, P1, ximg in *. denc enc.
      - assert (Hdr : forall p, In p (ar ++ P) -> dj r p).
        { intros p Hp. apply in_app_iff in Hp as [Hp|Hp]; [exact (HOr p Hp)|exact (Hd p Hp)]. }
        pose proof (src_unproc (ar ++ P) m2 r I2 Hr Hdr) as Su. unfold ximg in Su. rewrite ?Hc in Su.
        exact (word_b s m2 r (vl_next v) Hr (ko_fn _ _ K) Su).
      - pose proof (dst_proc _ m2 r I3 Hr Hr3) as Du. unfold ximg in Du. rewrite ?Hc in Du.
        exact (word_b d m2 r (vl_next v) Hr (ko_fn _ _ K) Du). }
    assert (Z0 : rd32 le m3 (s + off + vl_next v) = 0 <-> word32 le b (off + vl_next v) = 0).
    { destruct Hmode as [E|Dj].
      - pose proof (dst_proc _ m3 r I3 Hr Hr3) as Du. rewrite E in Du. unfold ximg in Du. denc enc.
        + exact (word_f_zero s m3 r (vl_next v) Hr (ko_fn _ _ K) Du).
        + assert (W : rd32 le m3 (s + off + vl_next v) = word32 le b (off + vl_next v)) by exact (word_b s m3 r (vl_next v) Hr (ko_fn _ _ K) Du). rewrite W. reflexivity.
      - assert (Su : forall x, in_rec r x -> m3 (s + x) = bmem X x).
        { intros x Hx. destruct I3 as (_ & _ & J3). apply J3; [exact Dj|]. unfold in_rec in Hx. cbn [fst snd r] in Hx. lia. }
        unfold ximg in Su. denc enc.
        + assert (W : rd32 le m3 (s + off + vl_next v) = word32 le b (off + vl_next v)) by exact (word_b s m3 r (vl_next v) Hr (ko_fn _ _ K) Su). rewrite W. reflexivity.
        + exact (word_f_zero s m3 r (vl_next v) Hr (ko_fn _ _ K) Su). }
    destruct defs as [|d2 defs].
    - replace (rd32 le m3 (s + off + vl_next v) =? 0) with true by lia.
      exists m3. split; [reflexivity|]. split.
      + cbn [chain_records flat_map]. rewrite app_nil_r. exact I3.
      + intros x Hx. rewrite F3, F2, F1 by lia. reflexivity.
    - destruct HC as [Hnz HC].
      replace (rd32 le m3 (s + off + vl_next v) =? 0) with false by lia.
      set (off1 := if enc then _ else _).
      assert (A2 : off1 = off + word32 le b (off + vl_next v)).
      { unfold off1, u64. denc enc; rewrite VN, Z.mod_small; lia. }
      rewrite A2.
      destruct (IH fuel m3 (off + word32 le b (off + vl_next v)) ((r :: ar) ++ P) HC I3) as (m' & E' & I' & F').
      + intros q Hq. apply HR. apply in_app_iff. right. exact Hq.
      + intros q p Hq Hp. apply in_app_iff in Hp as [Hp|Hp].
        * intros x H1 H2. exact (HO3 p q Hp Hq x H2 H1).
        * apply HD; [apply in_app_iff; right; exact Hq|exact Hp].
      + exact HO2.
      + lia.
      + exists m'. split; [exact E'|]. split.
        * apply (inv_incl (chain_records v (d2 :: defs) ++ (r :: ar) ++ P)); [|exact I'].
          intros q. rewrite !in_app_iff. tauto.
        * intros x Hx. rewrite F', F3, F2, F1 by lia. reflexivity.
  Qed.
End Chain.

Lemma cvt_ver_chain : forall k v le (enc : bool) m d s len b f defs,
  kind_ok k v -> 0 <= len < 2 ^ 62 -> d = s \/ disj d s len -> zlen b = len -> bytes_ok b ->
  def_chain v le b 0 defs -> recs_disjoint (chain_records v defs) ->
  (forall r, In r (chain_records v defs) -> 0 <= fst r /\ fst r + Z.of_nat (total (snd r)) <= len) ->
  records_swapped (chain_records v defs) b f ->
  rdm m s (Z.to_nat len) = (if enc then b else f) ->
  exists m', cvt_ver k le enc m d s len = Ok m' /\
    rdm m' d (Z.to_nat len) = (if enc then f else b) /\
    (forall x, ~ (d <= x < d + len) -> m' x = m x).
Proof.
  intros k v le enc m d s len b f defs K Hl Hm Lb Bb HC HO Hin (Lf & Sw & Out) Hs.
  rewrite Lb in Lf. unfold cvt_ver, cvt_ver_fuel.
  destruct (len =? 0) eqn:E0.
  { exfalso. destruct defs as [|[o a] defs]; [destruct HC|]. cbn [def_chain] in HC.
    destruct HC as (? & ? & ? & ?). pose proof (field_at_range _ _ (ko_fa _ _ K)). lia. }
  set (m0 := memmove m d s len). destruct (memmove_ok m d s len) as [R0 F0]; [lia|]. fold m0 in R0, F0.
  change (rdm m s (Z.to_nat len) = ximg enc b f) in Hs.
  set (X := ximg enc b f) in *.
  assert (LX : zlen X = len) by (unfold X, ximg; destruct enc; assumption).
  assert (PX : forall mm a, rdm mm a (Z.to_nat len) = X -> forall x, 0 <= x < len -> mm (a + x) = bmem X x).
  { intros mm a E x Hx. unfold bmem. rewrite <- E, nth_rdm by lia. f_equal. lia. }
  assert (I : Inv enc d s len b f [] m0).
  { split; [intros x _ (r & [] & _)|]. split.
    - intros x Hx _. apply (PX m0 d); [congruence|exact Hx].
    - intros Dj x Hx. unfold m0. rewrite F0 by (unfold disj in Dj; lia). apply (PX m s Hs x Hx). }
  destruct (chain_defs k v le enc d s len b f (chain_records v defs) K Hl Hm Lb Lf Bb Sw Hin defs
              (S (Z.to_nat len)) m0 0 [] HC I) as (m' & E' & I' & F'); [auto|intros ? ? _ []|exact HO|lia|].
  exists m'. split; [exact E'|]. split; [|intros x Hx; rewrite F', F0 by lia; reflexivity].
  change (if enc then f else b) with (ximg enc f b).
  set (Y := ximg enc f b) in *.
  assert (LY : zlen Y = len) by (unfold Y, ximg; destruct enc; assumption).
  rewrite app_nil_r in I'. destruct I' as (J1 & J2 & _).
  apply (nth_ext _ _ 0 0); [rewrite rdm_len; unfold zlen in LY; lia|].
  intros i Hi. rewrite rdm_len in Hi. rewrite nth_rdm by exact Hi.
  assert (Dec : (exists r, In r (chain_records v defs) /\ in_rec r (Z.of_nat i)) \/
                (forall r, In r (chain_records v defs) -> ~ in_rec r (Z.of_nat i))).
  { clear. induction (chain_records v defs) as [|r l IH]; [right; intros ? []|].
    destruct (Z_le_dec (fst r) (Z.of_nat i)) as [A|A];
      [destruct (Z_lt_dec (Z.of_nat i) (fst r + Z.of_nat (total (snd r)))) as [B|B]|].
    - left. exists r. split; [left; reflexivity|split; assumption].
    - destruct IH as [(q & Q1 & Q2)|IH]; [left; exists q; split; [right; exact Q1|exact Q2]|].
      right. intros q [<-|Hq]; [intros [_ ?]; contradiction|auto].
    - destruct IH as [(q & Q1 & Q2)|IH]; [left; exists q; split; [right; exact Q1|exact Q2]|].
      right. intros q [<-|Hq]; [intros [? _]; contradiction|auto]. }
  destruct Dec as [Dec|Dec].
  - rewrite J1 by (try exact Dec; lia). fold Y. unfold bmem. f_equal. lia.
  - rewrite J2 by (try exact Dec; lia). fold X.
    pose proof (Out (Z.of_nat i) Dec) as O.
    assert (G : forall g : bytes, zlen g = len -> znth g (Z.of_nat i) = Some (nth i g 0)).
    { intros g Lg. unfold znth. replace ((0 <=? Z.of_nat i) && (Z.of_nat i <? zlen g)) with true by lia.
      rewrite Nat2Z.id. apply nth_error_nth'. unfold zlen in Lg. lia. }
    rewrite !G in O by assumption. injection O as O. unfold bmem. rewrite Nat2Z.id.
    unfold X, Y, ximg. destruct enc; congruence.
Qed.
