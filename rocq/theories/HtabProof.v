(* Proofs about the hash tables. *)
From Verif Require Import Base PrimeModel PrimeProof HtabModel HtabSpec.
From Coq Require Import Znumtheory Permutation.

(* ------------------------------------------------------------------ *)
(* Double hashing visits every slot. *)
Section Probe.
Variable p h : Z.
Hypothesis Hp : prime p.
Hypothesis Hp5 : 5 <= p < 2 ^ 60.
Hypothesis Hh : 0 <= h < two64.

Definition pstep (p h : Z) : Z := 1 + h mod (p - 2).
Definition ppos (p h k : Z) : Z := 1 + (h - k * pstep p h) mod p.

Lemma pstep_bound : 1 <= pstep p h <= p - 2.
Proof. unfold pstep. pose proof (Z.mod_pos_bound h (p - 2) ltac:(lia)). lia. Qed.

Lemma ppos_bound : forall k, 1 <= ppos p h k <= p.
Proof. intros k; unfold ppos. pose proof (Z.mod_pos_bound (h - k * pstep p h) p ltac:(lia)). lia. Qed.

Lemma ppos_next : forall k idx, idx = ppos p h k ->
  (if idx <=? pstep p h then u64 (u64 (p + idx) - pstep p h) else u64 (idx - pstep p h))
  = ppos p h (k + 1).
Proof.
  intros k idx E. pose proof pstep_bound as Hs. pose proof (ppos_bound k) as Hb.
  rewrite <- E in Hb. unfold u64.
  assert (E2 : ppos p h (k + 1) = 1 + (idx - 1 - pstep p h) mod p).
  { subst idx. unfold ppos. f_equal.
    replace (1 + (h - k * pstep p h) mod p - 1 - pstep p h)
      with ((h - k * pstep p h) mod p - pstep p h) by lia.
    rewrite Zminus_mod_idemp_l. f_equal. ring. }
  rewrite E2. destruct (idx <=? pstep p h) eqn:El.
  - rewrite (Z.mod_small (p + idx)) by lia. rewrite (Z.mod_small (p + idx - pstep p h)) by lia.
    replace (idx - 1 - pstep p h) with (p + idx - pstep p h - 1 + (-1) * p) by lia.
    rewrite Z.mod_add by lia. rewrite Z.mod_small by lia. lia.
  - rewrite Z.mod_small by lia. rewrite (Z.mod_small (idx - 1 - pstep p h)) by lia. lia.
Qed.

Lemma ppos_surj : forall i, 1 <= i <= p -> exists k, 0 <= k < p /\ ppos p h k = i.
Proof.
  intros i Hi. pose proof pstep_bound as Hs.
  assert (Hr : rel_prime (pstep p h) p).
  { apply rel_prime_le_prime; [exact Hp|lia]. }
  destruct (rel_prime_bezout _ _ Hr) as [u v Huv].
  set (k := ((h + 1 - i) * u) mod p).
  exists k. split; [apply Z.mod_pos_bound; lia|].
  unfold ppos.
  replace ((h - k * pstep p h) mod p) with ((i - 1) mod p).
  - rewrite Z.mod_small by lia. lia.
  - apply Zmod_divide_minus_eq || idtac.
    assert (D : (p | (h - k * pstep p h) - (i - 1))).
    { unfold k. set (w := (h + 1 - i) * u).
      exists ((h + 1 - i) * v + (w / p) * pstep p h).
      pose proof (Z.div_mod w p ltac:(lia)) as DM.
      replace (w mod p) with (w - p * (w / p)) by lia.
      assert (W : w * pstep p h = (h + 1 - i) * (1 - v * p)).
      { unfold w. replace (1 - v * p) with (u * pstep p h) by lia. ring. }
      replace (h - (w - p * (w / p)) * pstep p h - (i - 1))
        with (h - w * pstep p h + p * (w / p) * pstep p h - (i - 1)) by ring.
      rewrite W. ring. }
    destruct D as [q D]. replace (h - k * pstep p h) with (i - 1 + q * p) by lia.
    symmetry. apply Z.mod_add; lia.
Qed.
End Probe.

(* ------------------------------------------------------------------ *)
Section Htab.
Variable TYPE : Type.
Variable same : TYPE -> TYPE -> bool.
Hypothesis same_refl : forall a, same a a = true.
Hypothesis same_sym : forall a b, same a b = true -> same b a = true.
Hypothesis same_trans : forall a b c, same a b = true -> same b c = true -> same a c = true.

Notation slot := (option (Z * TYPE)).
Notation lookup := (lookup TYPE same).
Notation hits := (hits TYPE same).

Definition entry (tab : list slot) (i : Z) (e : Z * TYPE) : Prop := znth tab i = Some (Some e).
Definition emptys (tab : list slot) (i : Z) : Prop := znth tab i = Some None.

(* e and e' have the same key *)
Definition clash (e e' : Z * TYPE) : Prop := fst e = fst e' /\ same (snd e) (snd e') = true.

Lemma hits_clash : forall h v e, hits h v e = true <-> clash e (h, v).
Proof.
  intros h v [h' d]; unfold HtabSpec.hits, clash; simpl.
  rewrite andb_true_iff, Z.eqb_eq. tauto.
Qed.

Lemma clash_sym : forall a b, clash a b -> clash b a.
Proof. intros a b [H1 H2]; split; [congruence|auto]. Qed.
Lemma clash_trans : forall a b c, clash a b -> clash b c -> clash a c.
Proof. intros a b c [H1 H2] [H3 H4]; split; [congruence|eauto]. Qed.
Lemma clash_refl : forall a, clash a a.
Proof. intros a; split; auto. Qed.

Record core (tab : list slot) (p : Z) : Prop := {
  core_len : zlen tab = p + 1;
  core_zero : znth tab 0 = Some None;
  core_hash : forall i e, entry tab i e -> 0 < fst e < two64;
  core_uniq : forall i j e e', entry tab i e -> entry tab j e' -> clash e e' -> i = j
}.

Definition reach (tab : list slot) (p : Z) : Prop :=
  forall i e, entry tab i e ->
    exists k, 0 <= k /\ ppos p (fst e) k = i /\
      forall j, 0 <= j < k -> exists e', entry tab (ppos p (fst e) j) e'.

Definition good_size (p : Z) : Prop := prime p /\ 5 <= p < 2 ^ 60.

Lemma entry_range : forall tab p i e, core tab p -> entry tab i e -> 1 <= i <= p.
Proof.
  intros tab p i e C E. pose proof (core_len _ _ C). pose proof (core_zero _ _ C).
  unfold entry in E. pose proof E as E'. apply znth_range in E'.
  destruct (Z.eq_dec i 0); [subst; congruence|]. lia.
Qed.

Lemma slot_cases : forall tab p i, core tab p -> 0 <= i <= p ->
  (exists e, entry tab i e /\ 0 < fst e < two64) \/ emptys tab i.
Proof.
  intros tab p i C Hi. pose proof (core_len _ _ C) as L.
  destruct (znth_in _ tab i ltac:(lia)) as [[e|] E].
  - left. exists e. split; [exact E|]. eapply core_hash; eauto.
  - right. exact E.
Qed.

(* what lookup found *)
Definition looked (tab : list slot) (p h : Z) (v : TYPE) (k : Z) : Prop :=
  0 <= k /\
  (forall j, 0 <= j < k -> exists e, entry tab (ppos p h j) e /\ hits h v e = false) /\
  (emptys tab (ppos p h k) \/ exists e, entry tab (ppos p h k) e /\ hits h v e = true).

Lemma slot_match_entry : forall e h v, slot_match TYPE same (Some e) h v = Ok (hits h v e).
Proof. intros [h' d] h v; reflexivity. Qed.

Lemma lookup_loop_ok : forall fuel tab p h v k ke,
  good_size p -> core tab p -> 0 < h < two64 ->
  0 <= k < ke -> emptys tab (ppos p h ke) ->
  ke - k <= Z.of_nat fuel ->
  (forall j, 0 <= j <= k -> exists e, entry tab (ppos p h j) e /\ hits h v e = false) ->
  exists k', looked tab p h v k' /\
    lookup_loop TYPE same fuel tab p h v (pstep p h) (ppos p h k) = Ok (ppos p h k').
Proof.
  induction fuel as [|fuel IH]; intros tab p h v k ke Hg C Hh Hk He Hf Hocc; [lia|].
  destruct Hg as [Hp Hp5].
  cbn [lookup_loop].
  rewrite (ppos_next p h Hp5 k (ppos p h k) eq_refl).
  pose proof (ppos_bound p h Hp5 (k + 1)) as Hb.
  destruct (slot_cases tab p (ppos p h (k + 1)) C ltac:(lia)) as [(e & E & Eh)|E].
  - unfold slot_at. unfold entry in E; rewrite E. cbn [obind].
    rewrite slot_match_entry. cbn [obind].
    destruct (hits h v e) eqn:Ehit.
    + exists (k + 1). split; [|reflexivity].
      split; [lia|]. split; [intros j Hj; apply Hocc; lia|].
      right. exists e. split; [exact E|exact Ehit].
    + destruct e as [h' d]. cbn [hashval fst] in *. replace (h' =? 0) with false by lia.
      assert (Hk1 : forall j, 0 <= j <= k + 1 ->
                 exists e, entry tab (ppos p h j) e /\ hits h v e = false).
      { intros j Hj. destruct (Z.eq_dec j (k + 1)) as [->|]; [|apply Hocc; lia].
        exists (h', d). split; assumption. }
      assert (ke <> k + 1).
      { intros ->. unfold emptys in He. congruence. }
      apply (IH tab p h v (k + 1) ke); auto; try lia. split; assumption.
  - unfold slot_at. unfold emptys in E; rewrite E. cbn [obind slot_match].
    replace (h =? 0) with false by lia. cbn [obind hashval]. rewrite Z.eqb_refl.
    exists (k + 1). split; [|reflexivity].
    split; [lia|]. split; [intros j Hj; apply Hocc; lia|].
    left. exact E.
Qed.

Lemma ppos_0 : forall p h, 0 < p -> ppos p h 0 = 1 + h mod p.
Proof. intros p h Hp. unfold ppos. now rewrite Z.mul_0_l, Z.sub_0_r. Qed.

Lemma lookup_ok : forall tab p h v,
  good_size p -> core tab p -> 0 < h < two64 ->
  (exists i, 1 <= i <= p /\ emptys tab i) ->
  exists k, looked tab p h v k /\ lookup tab p h v = Ok (ppos p h k).
Proof.
  intros tab p h v Hg C Hh (ie & Hie & He).
  destruct Hg as [Hp Hp5].
  destruct (ppos_surj p h Hp Hp5 ie Hie) as (ke & Hke & Eke).
  assert (He' : emptys tab (ppos p h ke)) by now rewrite Eke.
  unfold HtabModel.lookup.
  replace (u64 (1 + (if h <? p then h else h mod p))) with (ppos p h 0).
  2:{ rewrite ppos_0 by lia. pose proof (Z.mod_pos_bound h p ltac:(lia)).
      unfold u64. destruct (h <? p) eqn:E.
      - rewrite (Z.mod_small h p) by lia. rewrite Z.mod_small by lia. reflexivity.
      - rewrite (Z.mod_small (1 + h mod p)) by lia. reflexivity. }
  pose proof (ppos_bound p h Hp5 0) as Hb.
  destruct (slot_cases tab p (ppos p h 0) C ltac:(lia)) as [(e & E & Eh)|E].
  - unfold slot_at. unfold entry in E; rewrite E. cbn [obind].
    destruct e as [h' d]. cbn [hashval fst] in *. replace (h' =? 0) with false by lia.
    rewrite slot_match_entry. cbn [obind]. destruct (hits h v (h', d)) eqn:Ehit.
    + exists 0. split; [|reflexivity]. split; [lia|]. split; [intros; lia|].
      right. exists (h', d). auto.
    + assert (Es : u64 (1 + h mod u64 (p - 2)) = pstep p h).
      { unfold u64, pstep. rewrite (Z.mod_small (p - 2)) by lia.
        pose proof (Z.mod_pos_bound h (p - 2) ltac:(lia)). apply Z.mod_small. lia. }
      rewrite Es.
      assert (ke <> 0) by (intros ->; unfold emptys in He'; congruence).
      apply (lookup_loop_ok (length tab) tab p h v 0 ke); auto; try lia.
      * split; assumption.
      * pose proof (core_len _ _ C). unfold zlen in *. lia.
      * intros j Hj. assert (j = 0) as -> by lia. exists (h', d). auto.
  - unfold slot_at. unfold emptys in E; rewrite E. cbn [obind hashval]. rewrite Z.eqb_refl.
    exists 0. split; [|reflexivity]. split; [lia|]. split; [intros; lia|]. left; exact E.
Qed.

(* a size-1 table without entries *)
Lemma lookup_one : forall tab h v, znth tab 1 = Some None -> 0 <= h ->
  lookup tab 1 h v = Ok 1.
Proof.
  intros tab h v E Hh. unfold HtabModel.lookup.
  replace (u64 (1 + (if h <? 1 then h else h mod 1))) with 1.
  - unfold slot_at. rewrite E. reflexivity.
  - rewrite Z.mod_1_r. destruct (h <? 1) eqn:El; [|reflexivity].
    assert (h = 0) as -> by lia. reflexivity.
Qed.

(* if the key is present, lookup finds it *)
Lemma looked_hit : forall tab p h v k i e,
  core tab p -> reach tab p -> looked tab p h v k -> entry tab i e -> clash e (h, v) ->
  ppos p h k = i.
Proof.
  intros tab p h v k i e C R (Hk & Hj & Hr) E Hc.
  pose proof Hc as [Hce Hcs]. simpl in Hce.
  destruct (R i e E) as (ki & Hki & Epos & Hprev). rewrite Hce in Epos, Hprev.
  assert (k <= ki).
  { destruct (Z_lt_le_dec ki k); [|lia]. exfalso.
    destruct (Hj ki ltac:(lia)) as (e2 & E2 & Hn). rewrite Epos in E2.
    unfold entry in *. assert (e2 = e) by congruence. subst e2.
    apply hits_clash in Hc. congruence. }
  destruct Hr as [Hempty|(e2 & E2 & Hhit)].
  - destruct (Z.eq_dec k ki) as [->|]; [exact Epos|]. exfalso.
    destruct (Hprev k ltac:(lia)) as (e3 & E3). unfold entry, emptys in *. congruence.
  - apply (core_uniq _ _ C _ _ _ _ E2 E).
    apply hits_clash in Hhit. eapply clash_trans; [exact Hhit|]. now apply clash_sym.
Qed.

(* ------------------------------------------------------------------ *)
(* storing an entry *)
Lemma entry_zset : forall tab p i e j e', core tab p -> 1 <= i <= p ->
  (entry (zset tab i (Some e)) j e' <-> (j = i /\ e' = e) \/ (j <> i /\ entry tab j e')).
Proof.
  intros tab p i e j e' C Hi. unfold entry.
  destruct (Z.eq_dec j i) as [->|Hn].
  - rewrite znth_zset_eq by (pose proof (core_len _ _ C); lia).
    split; [intros H; inversion H; auto|]. intros [[_ ->]|[H _]]; congruence.
  - rewrite znth_zset_neq by congruence. split; [auto|]. intros [[H _]|[_ H]]; [congruence|exact H].
Qed.

Lemma store_core : forall tab p h v k,
  core tab p -> reach tab p -> 1 <= ppos p h k <= p -> 0 < h < two64 -> looked tab p h v k ->
  core (zset tab (ppos p h k) (Some (h, v))) p /\
  reach (zset tab (ppos p h k) (Some (h, v))) p.
Proof.
  intros tab p h v k C R Hb Hh L.
  set (i := ppos p h k) in *.
  split.
  - constructor.
    + rewrite zlen_zset. apply (core_len _ _ C).
    + rewrite znth_zset_neq by lia. apply (core_zero _ _ C).
    + intros j e E. apply (entry_zset tab p) in E; auto.
      destruct E as [[_ ->]|[_ E]]; [exact Hh|]. eapply core_hash; eauto.
    + intros a b e e' Ea Eb Hc.
      apply (entry_zset tab p) in Ea; auto. apply (entry_zset tab p) in Eb; auto.
      destruct Ea as [[-> ->]|[Na Ea]], Eb as [[-> ->]|[Nb Eb]].
      * reflexivity.
      * exfalso. apply Nb. symmetry. eapply looked_hit; eauto. now apply clash_sym.
      * exfalso. apply Na. symmetry. eapply looked_hit; eauto.
      * eapply core_uniq; eauto.
  - intros j e E. apply (entry_zset tab p) in E; auto.
    assert (M : forall a e0, entry tab a e0 -> exists e1, entry (zset tab i (Some (h, v))) a e1).
    { intros a e0 E0. destruct (Z.eq_dec a i) as [->|].
      - exists (h, v). apply (entry_zset tab p); auto.
      - exists e0. apply (entry_zset tab p); auto. }
    destruct E as [[-> ->]|[Nj E]].
    + exists k. destruct L as (Hk & Hj & _). split; [exact Hk|]. split; [reflexivity|].
      intros j Hjk. destruct (Hj j Hjk) as (e0 & E0 & _). eapply M; eauto.
    + destruct (R j e E) as (kj & Hkj & Epos & Hprev). exists kj.
      split; [exact Hkj|]. split; [exact Epos|].
      intros j0 Hj0. destruct (Hprev j0 Hj0) as (e0 & E0). eapply M; eauto.
Qed.

(* counting used slots *)
Definition slot_used (s : slot) : list (Z * TYPE) :=
  match s with Some (h, d) => if h =? 0 then [] else [(h, d)] | None => [] end.

Lemma used_by_index_eq : forall tab : list slot, used_by_index tab = flat_map slot_used (skipn 1 tab).
Proof. reflexivity. Qed.

Lemma used_length_le : forall l : list slot, (length (flat_map slot_used l) <= length l)%nat.
Proof.
  induction l as [|s l IH]; simpl; [lia|]. rewrite app_length.
  assert (length (slot_used s) <= 1)%nat.
  { destruct s as [[h d]|]; simpl; [destruct (h =? 0)|]; simpl; lia. }
  lia.
Qed.

Lemma exists_empty : forall tab p, core tab p -> zlen (used_by_index tab) < p -> 1 <= p ->
  exists i, 1 <= i <= p /\ emptys tab i.
Proof.
  intros tab p C Hlt Hp.
  pose proof (core_len _ _ C) as L.
  destruct tab as [|s0 tab]; [rewrite zlen_nil in L; lia|].
  rewrite used_by_index_eq in Hlt. cbn [skipn] in Hlt. rewrite zlen_cons in L.
  assert (D : (exists s, In s tab /\ s = None) \/ Forall (fun s => s <> None) tab).
  { clear. induction tab as [|s tab [(s' & I & E)|IH]].
    - right; constructor.
    - left. exists s'; split; [now right|exact E].
    - destruct s; [right; constructor; [discriminate|exact IH]|].
      left. exists None. split; [now left|reflexivity]. }
  destruct D as [(s & I & ->)|F].
  - destruct (In_znth _ _ _ I) as (i & Hi & E). exists (i + 1). split; [lia|].
    unfold emptys. now rewrite znth_succ by lia.
  - exfalso.
    assert (Hall : forall s, In s tab -> exists e, s = Some e /\ 0 < fst e).
    { intros s I. destruct (In_znth _ _ _ I) as (i & Hi & E).
      rewrite Forall_forall in F. destruct s as [e|]; [|exfalso; exact (F _ I eq_refl)].
      exists e. split; [reflexivity|].
      assert (En : entry (s0 :: tab) (i + 1) e) by (unfold entry; rewrite znth_succ; [exact E|lia]).
      apply (core_hash _ _ C) in En. lia. }
    assert (length (flat_map slot_used tab) = length tab).
    { clear - Hall. induction tab as [|s tab IH]; [reflexivity|].
      simpl. rewrite app_length, IH by (intros; apply Hall; now right).
      destruct (Hall s ltac:(now left)) as ([h d] & -> & Hh). simpl in Hh. simpl.
      replace (h =? 0) with false by lia. reflexivity. }
    unfold zlen in *. lia.
Qed.

Lemma used_In : forall tab p e, core tab p ->
  (In e (used_by_index tab) <-> exists i, entry tab i e).
Proof.
  intros tab p e C. pose proof (core_len _ _ C) as L. pose proof (core_zero _ _ C) as Z0.
  destruct tab as [|s0 tab].
  - simpl. split; [tauto|]. intros [i E]. unfold entry in E.
    rewrite znth_out in E by (rewrite zlen_nil; lia). discriminate.
  - rewrite used_by_index_eq. cbn [skipn]. rewrite in_flat_map.
    rewrite znth_0 in Z0. inversion Z0; subst s0. split.
    + intros (s & I & Hs). destruct (In_znth _ _ _ I) as (i & Hi & E).
      destruct s as [[h d]|]; [|destruct Hs]. simpl in Hs.
      destruct (h =? 0); [destruct Hs|]. destruct Hs as [<-|[]].
      exists (i + 1). unfold entry. now rewrite znth_succ by lia.
    + intros [i E]. pose proof (entry_range _ _ _ _ C E) as Hr.
      pose proof (core_hash _ _ C _ _ E) as Hh. unfold entry in E.
      replace i with (i - 1 + 1) in E by lia. rewrite znth_succ in E by lia.
      exists (Some e). split; [eapply znth_In; eauto|].
      destruct e as [h d]. simpl in *. replace (h =? 0) with false by lia. now left.
Qed.

Lemma flat_used_pairs : forall l : list slot,
  (forall i j e e', entry l i e -> entry l j e' -> clash e e' -> i = j) ->
  ForallOrdPairs (fun e e' => ~ clash e e') (flat_map slot_used l).
Proof.
  induction l as [|s l IH]; intros U; [constructor|].
  assert (T : ForallOrdPairs (fun e e' => ~ clash e e') (flat_map slot_used l)).
  { apply IH. intros i j e e' E1 E2 Hc.
    assert (0 <= i /\ 0 <= j) as [Hi Hj].
    { unfold entry in *. apply znth_range in E1. apply znth_range in E2. lia. }
    assert (i + 1 = j + 1); [|lia].
    apply (U (i + 1) (j + 1) e e'); [| |exact Hc]; unfold entry; rewrite znth_succ; auto. }
  simpl. destruct s as [[h d]|]; [|exact T]. simpl.
  destruct (h =? 0); [exact T|]. simpl. constructor; [|exact T].
  rewrite Forall_forall. intros e' I Hc.
  apply in_flat_map in I. destruct I as (s & I & Hs).
  destruct (In_znth _ _ _ I) as (j & Hj & E).
  destruct s as [[h' d']|]; [|destruct Hs]. simpl in Hs.
  destruct (h' =? 0); [destruct Hs|]. destruct Hs as [<-|[]].
  assert (0 = j + 1); [|lia].
  apply (U 0 (j + 1) (h, d) (h', d')); [| |exact Hc]; unfold entry.
  - apply znth_0.
  - rewrite znth_succ; [exact E|lia].
Qed.

Lemma used_pairs : forall tab p, core tab p ->
  ForallOrdPairs (fun e e' => ~ clash e e') (used_by_index tab).
Proof.
  intros tab p C. rewrite used_by_index_eq.
  pose proof (core_len _ _ C) as L.
  destruct tab as [|s0 tab]; [constructor|]. cbn [skipn].
  apply flat_used_pairs. intros i j e e' E1 E2 Hc.
  assert (0 <= i /\ 0 <= j) as [Hi Hj].
  { unfold entry in *. apply znth_range in E1. apply znth_range in E2. lia. }
  assert (i + 1 = j + 1); [|lia].
  apply (core_uniq _ _ C (i + 1) (j + 1) e e'); [| |exact Hc]; unfold entry; rewrite znth_succ; auto.
Qed.

Lemma used_zset_le : forall (tab : list slot) i e, 1 <= i < zlen tab ->
  zlen (used_by_index (zset tab i (Some e))) <= zlen (used_by_index tab) + 1.
Proof.
  intros tab i e Hi. destruct tab as [|s0 tab]; [rewrite zlen_nil in Hi; lia|].
  rewrite zlen_cons in Hi. unfold zset. rewrite zlen_cons.
  replace ((0 <=? i) && (i <? 1 + zlen tab)) with true by lia.
  replace (Z.to_nat i) with (S (Z.to_nat (i - 1))) by lia.
  cbn [firstn]. rewrite !used_by_index_eq. cbn [app skipn].
  rewrite <- (firstn_skipn (Z.to_nat (i - 1)) tab) at 3.
  rewrite !flat_map_app, !zlen_app. cbn [flat_map]. rewrite zlen_app.
  assert (zlen (slot_used (Some e)) <= 1).
  { destruct e as [h d]; simpl. destruct (h =? 0); unfold zlen; simpl; lia. }
  assert (zlen (flat_map slot_used (skipn (S (Z.to_nat (i - 1))) tab))
          <= zlen (flat_map slot_used (skipn (Z.to_nat (i - 1)) tab))).
  { generalize (Z.to_nat (i - 1)) as n. clear. intros n; revert tab.
    induction n as [|n IH]; intros tab.
    - destruct tab as [|s tab]; [simpl; lia|].
      change (skipn 1 (s :: tab)) with tab. change (skipn 0 (s :: tab)) with (s :: tab).
      cbn [flat_map]. rewrite zlen_app. pose proof (zlen_nonneg _ (slot_used s)). lia.
    - destruct tab as [|s tab]; [simpl; lia|]. apply IH. }
  cbn [skipn] in H0. lia.
Qed.

(* ------------------------------------------------------------------ *)
(* The invariant of a dynamic table with respect to the map m. *)
Definition same_set (tab : list slot) (m : list (Z * TYPE)) : Prop :=
  forall e, In e m <-> exists i, entry tab i e.

(* the iteration chain lists each used index once *)
Definition chain_ok (tab : list slot) (first : list Z) : Prop :=
  NoDup first /\ forall i, In i first <-> exists e, entry tab i e.

Record inv (n : Z) (t : htab TYPE) (m : list (Z * TYPE)) : Prop := {
  inv_core : core (ht_table t) (ht_size t);
  inv_reach : reach (ht_table t) (ht_size t);
  inv_size : good_size (ht_size t) \/ (ht_size t = 1 /\ ht_filled t = 0);
  inv_used : zlen (used_by_index (ht_table t)) <= ht_filled t;
  inv_load : 0 <= ht_filled t /\ 100 * ht_filled t <= 90 * ht_size t;
  inv_ops : ht_filled t <= n;
  inv_set : same_set (ht_table t) m;
  inv_chain : chain_ok (ht_table t) (ht_first t)
}.

Lemma find_spec_hit : forall tab p m h v k e,
  core tab p -> same_set tab m -> looked tab p h v k ->
  entry tab (ppos p h k) e -> hits h v e = true ->
  find (hits h v) m = Some e.
Proof.
  intros tab p m h v k e C S L E H.
  destruct (find (hits h v) m) as [e2|] eqn:F.
  - apply find_some in F. destruct F as [I H2].
    apply S in I. destruct I as [j Ej].
    assert (j = ppos p h k).
    { apply (core_uniq _ _ C _ _ _ _ Ej E).
      apply hits_clash in H. apply hits_clash in H2.
      eapply clash_trans; [exact H2|now apply clash_sym]. }
    subst j. unfold entry in *. congruence.
  - exfalso. apply (find_none _ _ F e) in H || idtac.
    assert (In e m) by (apply S; eauto).
    pose proof (find_none _ _ F e H0). congruence.
Qed.

Lemma find_spec_miss : forall tab p m h v k,
  core tab p -> reach tab p -> same_set tab m -> looked tab p h v k ->
  emptys tab (ppos p h k) ->
  find (hits h v) m = None.
Proof.
  intros tab p m h v k C R S L E.
  destruct (find (hits h v) m) as [e2|] eqn:F; [|reflexivity]. exfalso.
  apply find_some in F. destruct F as [I H2].
  apply S in I. destruct I as [j Ej]. apply hits_clash in H2.
  pose proof (looked_hit _ _ _ _ _ _ _ C R L Ej H2) as Eq. rewrite <- Eq in Ej.
  unfold entry, emptys in *. congruence.
Qed.

(* lookup from the invariant *)
Lemma inv_lookup : forall n t m h v, inv n t m -> 0 < h < two64 ->
  exists k, looked (ht_table t) (ht_size t) h v k
            /\ lookup (ht_table t) (ht_size t) h v = Ok (ppos (ht_size t) h k)
            /\ 1 <= ppos (ht_size t) h k <= ht_size t.
Proof.
  intros n t m h v I Hh. pose proof (inv_core _ _ _ I) as C.
  destruct (inv_size _ _ _ I) as [Hg|[H1 Hf]].
  - destruct (lookup_ok (ht_table t) (ht_size t) h v Hg C Hh) as (k & L & E).
    { destruct Hg as [Hp Hp5]. apply exists_empty; [exact C| |lia].
      pose proof (inv_used _ _ _ I). pose proof (inv_load _ _ _ I). lia. }
    exists k. split; [exact L|]. split; [exact E|]. destruct Hg. apply ppos_bound; lia.
  - pose proof (inv_used _ _ _ I) as U. rewrite Hf in U.
    assert (E1 : emptys (ht_table t) 1).
    { destruct (exists_empty (ht_table t) (ht_size t) C) as (i & Hi & Ei); try lia.
      assert (i = 1) as -> by lia. exact Ei. }
    exists 0. rewrite H1. rewrite ppos_0 by lia. rewrite Z.mod_1_r.
    split; [|split; [rewrite lookup_one; [reflexivity|exact E1|lia]|lia]].
    split; [lia|]. split; [intros; lia|]. left. rewrite ppos_0, Z.mod_1_r by lia. exact E1.
Qed.

(* the table after storing: what the caller sees *)
Definition store_map (m : list (Z * TYPE)) (h : Z) (d : TYPE) : list (Z * TYPE) :=
  match find (hits h d) m with
  | Some _ => map (fun e => if hits h d e then (h, d) else e) m
  | None => m ++ [(h, d)]
  end.

Lemma store_set : forall tab p m h v k,
  core tab p -> reach tab p -> same_set tab m -> looked tab p h v k ->
  1 <= ppos p h k <= p ->
  same_set (zset tab (ppos p h k) (Some (h, v))) (store_map m h v).
Proof.
  intros tab p m h v k C R S L Hb e. unfold store_map.
  set (i := ppos p h k) in *.
  assert (Z : (exists i0, entry (zset tab i (Some (h, v))) i0 e) <->
              e = (h, v) \/ exists j, j <> i /\ entry tab j e).
  { split.
    - intros [j E]. apply (entry_zset tab p) in E; auto. destruct E as [[_ ->]|[N E]]; [now left|right; eauto].
    - intros [->|(j & N & E)].
      + exists i. apply (entry_zset tab p); auto.
      + exists j. apply (entry_zset tab p); auto. }
  rewrite Z. destruct L as (Hk & Hj & [Hem|(e0 & E0 & H0)]).
  - assert (L : looked tab p h v k) by (split; [exact Hk|split; [exact Hj|left; exact Hem]]).
    rewrite (find_spec_miss tab p m h v k C R S L Hem).
    rewrite in_app_iff. simpl. split.
    + intros [I|[<-|[]]]; [|now left]. right. apply S in I. destruct I as [j E]. exists j.
      split; [|exact E]. intros ->. unfold emptys, entry in *. fold i in Hem. congruence.
    + intros [->|(j & N & E)]; [tauto|]. left. apply S. eauto.
  - assert (L : looked tab p h v k).
    { split; [exact Hk|split; [exact Hj|right; eauto]]. }
    rewrite (find_spec_hit tab p m h v k e0 C S L E0 H0).
    rewrite in_map_iff. split.
    + intros (e1 & <- & I). destruct (hits h v e1) eqn:H1; [now left|]. right.
      apply S in I. destruct I as [j E]. exists j. split; [|exact E].
      intros ->. unfold entry in *. fold i in E0. assert (e1 = e0) by congruence. congruence.
    + intros [->|(j & N & E)].
      * exists e0. rewrite H0. split; [reflexivity|]. apply S. exists i. exact E0.
      * exists e. destruct (hits h v e) eqn:H1.
        { exfalso. apply N. apply hits_clash in H1. apply hits_clash in H0.
          apply (core_uniq _ _ C _ _ _ _ E E0). eapply clash_trans; [exact H1|now apply clash_sym]. }
        split; [reflexivity|]. apply S. eauto.
Qed.

Lemma store_chain : forall tab p h v k first,
  core tab p -> chain_ok tab first -> looked tab p h v k -> 1 <= ppos p h k <= p ->
  forall s, znth tab (ppos p h k) = Some s ->
  chain_ok (zset tab (ppos p h k) (Some (h, v)))
    (if hashval s =? 0 then ppos p h k :: first else first).
Proof.
  intros tab p h v k first C [ND CI] L Hb s Es.
  set (i := ppos p h k) in *.
  assert (Z : forall j, (exists e, entry (zset tab i (Some (h, v))) j e) <->
              j = i \/ exists e, entry tab j e).
  { intros j. split.
    - intros [e E]. apply (entry_zset tab p) in E; auto. destruct E as [[-> _]|[N E]]; [now left|right; eauto].
    - intros [->|(e & E)].
      + exists (h, v). apply (entry_zset tab p); auto.
      + destruct (Z.eq_dec j i) as [->|].
        * exists (h, v). apply (entry_zset tab p); auto.
        * exists e. apply (entry_zset tab p); auto. }
  destruct s as [[h' d']|].
  - assert (E : entry tab i (h', d')) by exact Es.
    pose proof (core_hash _ _ C _ _ E) as Hh. simpl in Hh. cbn [hashval].
    replace (h' =? 0) with false by lia.
    split; [exact ND|]. intros j. rewrite Z, CI. split; [tauto|].
    intros [->|H]; [eauto|exact H].
  - cbn [hashval]. rewrite Z.eqb_refl. split.
    + constructor; [|exact ND]. rewrite CI. intros [e E]. unfold entry in E. congruence.
    + intros j. rewrite Z. simpl. rewrite CI. split; [intros [<-|H]; auto|intros [->|H]; auto].
Qed.

(* storing without growth keeps the invariant *)
Lemma insert_entry_small : forall dep npf alloc v t m n h d k,
  inv n t m -> good_size (ht_size t) -> 0 < h < two64 ->
  looked (ht_table t) (ht_size t) h d k ->
  1 <= ppos (ht_size t) h k <= ht_size t ->
  100 * (ht_filled t + 1) <= 90 * ht_size t -> ht_size t < 2 ^ 56 ->
  exists t', insert_entry_2 TYPE same (S dep) npf alloc v t h (ppos (ht_size t) h k) d = Ok t'
    /\ inv (n + 1) t' (store_map m h d)
    /\ ht_size t' = ht_size t /\ ht_filled t' = ht_filled t + 1.
Proof.
  intros dep npf alloc v t m n h d k I Hg Hh L Hb Hload H56.
  pose proof (inv_core _ _ _ I) as C. pose proof (inv_reach _ _ _ I) as R.
  pose proof (inv_load _ _ _ I) as [Hf0 Hl].
  destruct (slot_cases (ht_table t) (ht_size t) (ppos (ht_size t) h k) C ltac:(lia)) as [(e & E & Eh)|E];
    cbn [insert_entry_2]; unfold slot_at; unfold entry, emptys in E; rewrite E; cbn [obind];
    unfold u64; rewrite (Z.mod_small (ht_filled t + 1)) by lia;
    rewrite (Z.mod_small (90 * ht_size t)) by lia;
    rewrite (Z.mod_small (100 * (ht_filled t + 1))) by lia;
    replace (90 * ht_size t <? 100 * (ht_filled t + 1)) with false by lia;
    eexists; (split; [reflexivity|]); cbn [ht_size ht_filled].
  all: split; [|split; reflexivity].
  all: destruct (store_core _ _ _ _ _ C R Hb Hh L) as [C' R'].
  all: constructor; cbn [ht_size ht_filled ht_table ht_first]; auto; try lia.
  all: try (eapply Z.le_trans; [apply used_zset_le; pose proof (core_len _ _ C); lia|];
            pose proof (inv_used _ _ _ I); lia).
  all: try (pose proof (inv_ops _ _ _ I); lia).
  all: try (eapply store_set; eauto using inv_set).
  all: eapply store_chain; eauto using inv_chain.
Qed.

(* a fresh table *)
Lemma fresh_inv : forall p, good_size p \/ p = 1 ->
  inv 0 {| ht_size := p; ht_filled := 0; ht_table := repeat None (Z.to_nat (1 + p)); ht_first := [] |} [].
Proof.
  intros p Hp.
  assert (Hp1 : 1 <= p) by (destruct Hp as [[_ H]|H]; lia).
  assert (NE : forall i e, ~ entry (repeat (@None (Z * TYPE)) (Z.to_nat (1 + p))) i e).
  { intros i e E. unfold entry in E. pose proof E as E'. apply znth_range in E'.
    rewrite zlen_repeat in E'. rewrite znth_repeat in E by lia. discriminate. }
  assert (C : core (repeat (@None (Z * TYPE)) (Z.to_nat (1 + p))) p).
  { constructor.
    - rewrite zlen_repeat. lia.
    - apply znth_repeat. lia.
    - intros i e E. destruct (NE i e E).
    - intros i j e e' E. destruct (NE i e E). }
  constructor; cbn [ht_size ht_filled ht_table ht_first].
  - exact C.
  - intros i e E. destruct (NE i e E).
  - destruct Hp; auto.
  - rewrite used_by_index_eq.
    replace (flat_map slot_used (skipn 1 (repeat None (Z.to_nat (1 + p))))) with (@nil (Z * TYPE)).
    + unfold zlen; simpl; lia.
    + replace (Z.to_nat (1 + p)) with (S (Z.to_nat p)) by lia. cbn [repeat skipn].
      induction (Z.to_nat p) as [|q IHq]; [reflexivity|exact IHq].
  - lia.
  - lia.
  - intros e. simpl. split; [tauto|]. intros [i E]. destruct (NE i e E).
  - split; [constructor|]. intros i. simpl. split; [tauto|]. intros [e E]. destruct (NE i e E).
Qed.

(* re-inserting a list of pairwise different entries *)
Lemma rehash_fold : forall es dep npf alloc v t m n,
  inv n t m -> good_size (ht_size t) -> ht_size t < 2 ^ 56 ->
  ForallOrdPairs (fun e e' => ~ clash e e') es ->
  (forall e, In e es -> 0 < fst e < two64) ->
  (forall e e', In e m -> In e' es -> ~ clash e e') ->
  100 * (ht_filled t + zlen es) <= 90 * ht_size t ->
  exists t', fold_left
     (fun acc e =>
        t' <- acc ;;
        i <- lookup (ht_table t') (ht_size t') (fst e) (snd e) ;;
        insert_entry_2 TYPE same (S dep) npf alloc v t' (fst e) i (snd e)) es (Ok t) = Ok t'
    /\ inv (n + zlen es) t' (m ++ es)
    /\ ht_size t' = ht_size t /\ ht_filled t' = ht_filled t + zlen es.
Proof.
  induction es as [|e es IH]; intros dep npf alloc v t m n I Hg H56 FP HH NC Hload.
  - exists t. simpl. rewrite zlen_nil, app_nil_r, !Z.add_0_r. auto.
  - rewrite zlen_cons in Hload. pose proof (zlen_nonneg _ es).
    inversion FP as [|? ? F1 F2]; subst.
    pose proof (HH e (or_introl eq_refl)) as He.
    destruct (inv_lookup n t m (fst e) (snd e) I He) as (k & L & E & Hb).
    destruct (insert_entry_small dep npf alloc v t m n (fst e) (snd e) k I Hg He L Hb ltac:(lia) H56)
      as (t1 & E1 & I1 & S1 & F1').
    cbn [fold_left obind]. rewrite E. cbn [obind]. rewrite E1.
    assert (SM : store_map m (fst e) (snd e) = m ++ [e]).
    { unfold store_map. destruct (find (hits (fst e) (snd e)) m) as [e2|] eqn:F.
      - exfalso. apply find_some in F. destruct F as [I2 H2]. apply hits_clash in H2.
        apply (NC e2 e I2 (or_introl eq_refl)). destruct e; exact H2.
      - destruct e; reflexivity. }
    rewrite SM in I1.
    destruct (IH dep npf alloc v t1 (m ++ [e]) (n + 1) I1) as (t2 & E2 & I2 & S2 & F2'); auto.
    + rewrite S1. exact Hg.
    + rewrite S1. exact H56.
    + intros x Hx. apply HH. now right.
    + intros a b Ha Hb2. apply in_app_iff in Ha. destruct Ha as [Ha|[<-|[]]].
      * apply NC; [exact Ha|now right].
      * rewrite Forall_forall in F1. now apply F1.
    + rewrite S1, F1'. lia.
    + exists t2. split; [exact E2|]. rewrite zlen_cons.
      rewrite <- app_assoc in I2. cbn [app] in I2.
      split; [|split; [congruence|lia]].
      replace (n + (1 + zlen es)) with (n + 1 + zlen es) by lia. exact I2.
Qed.

(* entries along the chain *)
Lemma chain_In : forall (tab : list slot) first e,
  (In e (used_by_chain tab first) <-> exists i, In i first /\ entry tab i e).
Proof.
  intros tab first e. unfold used_by_chain. rewrite in_flat_map. split.
  - intros (i & I & H). exists i. split; [exact I|]. unfold entry.
    destruct (znth tab i) as [[e'|]|]; try destruct H. subst; reflexivity. destruct H.
  - intros (i & I & H). exists i. split; [exact I|]. unfold entry in H. rewrite H. now left.
Qed.

Lemma chain_pairs : forall tab p first, core tab p -> NoDup first ->
  ForallOrdPairs (fun e e' => ~ clash e e') (used_by_chain tab first).
Proof.
  intros tab p first C. induction first as [|i first IH]; intros ND; [constructor|].
  inversion ND as [|? ? Hn ND']; subst. specialize (IH ND').
  unfold used_by_chain in *. cbn [flat_map].
  destruct (znth tab i) as [[e|]|] eqn:E; simpl; try exact IH.
  constructor; [|exact IH]. rewrite Forall_forall. intros e' I Hc.
  apply (chain_In tab first e') in I. destruct I as (j & Ij & Ej).
  assert (i = j) by (eapply core_uniq; eauto). subst. contradiction.
Qed.

(* a list of pairwise different entries of the table is no longer than it *)
Lemma pairs_NoDup : forall es : list (Z * TYPE),
  ForallOrdPairs (fun e e' => ~ clash e e') es -> NoDup es.
Proof.
  induction 1 as [|e es F _ IH]; constructor; [|exact IH].
  intros I. rewrite Forall_forall in F. apply (F e I). apply clash_refl.
Qed.

Lemma zlen_le_of_incl : forall a b : list (Z * TYPE),
  NoDup a -> incl a b -> zlen a <= zlen b.
Proof. intros a b N I. unfold zlen. pose proof (NoDup_incl_length N I). lia. Qed.

Definition entries_of (v : variant) (tab : list slot) (first : list Z) : list (Z * TYPE) :=
  match v with Plain => used_by_index tab | IterReverse => used_by_chain tab first end.

Lemma entries_of_ok : forall v tab p first, core tab p -> chain_ok tab first ->
  ForallOrdPairs (fun e e' => ~ clash e e') (entries_of v tab first)
  /\ (forall e, In e (entries_of v tab first) <-> exists i, entry tab i e)
  /\ zlen (entries_of v tab first) <= p.
Proof.
  intros v tab p first C [ND CI].
  assert (UI : forall e, In e (used_by_index tab) <-> exists i, entry tab i e)
    by (intros; eapply used_In; eauto).
  assert (UL : zlen (used_by_index tab) <= p).
  { rewrite used_by_index_eq. pose proof (core_len _ _ C).
    pose proof (used_length_le (skipn 1 tab)) as UL0. rewrite skipn_length in UL0.
    assert (0 < zlen tab).
    { pose proof (core_zero _ _ C) as Z0. apply znth_range in Z0. lia. }
    unfold zlen in *. lia. }
  destruct v; simpl.
  - split; [eapply used_pairs; eauto|]. split; assumption.
  - assert (P : ForallOrdPairs (fun e e' => ~ clash e e') (used_by_chain tab first))
      by (eapply chain_pairs; eauto).
    assert (CIn : forall e, In e (used_by_chain tab first) <-> exists i, entry tab i e).
    { intros e. rewrite chain_In. split; [intros (i & _ & E); eauto|].
      intros (i & E). exists i. split; [apply CI; eauto|exact E]. }
    split; [exact P|]. split; [exact CIn|].
    eapply Z.le_trans; [|exact UL]. apply zlen_le_of_incl; [now apply pairs_NoDup|].
    intros e I. apply UI. now apply CIn.
Qed.

(* next_prime for growth *)
Lemma grow_prime : forall npf s P, prime P -> P < 2 ^ 56 -> 1 <= s -> 2 * s <= P -> 5 <= P ->
  P < Z.of_nat npf ->
  exists q, next_prime npf (u64 (s * 2)) = Ok q /\ good_size q /\ 2 * s <= q <= P.
Proof.
  intros npf s P HP HP56 Hs H2 H5 Hf. unfold u64. rewrite Z.mod_small by lia.
  destruct (Z.eq_dec s 1) as [->|].
  - exists 5. split.
    + destruct npf as [|[|npf]]; try lia. reflexivity.
    + split; [|lia]. split; [|lia].
      apply (no_small_divisor_prime 5 3); try lia.
      intros k Hk D. assert (k = 2) by lia; subst. apply Z.mod_divide in D; [|lia]. discriminate.
  - destruct (next_prime_spec npf (s * 2) P) as (q & E & Hq & Hr & _); try lia; auto.
    exists q. split; [exact E|]. split; [|lia]. split; [exact Hq|].
    split; [|lia]. destruct (Z.eq_dec q 4) as [->|]; [|lia].
    exfalso. apply (even_not_prime 4); [lia|reflexivity|exact Hq].
Qed.

Definition set_equiv (m m' : list (Z * TYPE)) : Prop := forall e, In e m <-> In e m'.

Lemma inv_equiv : forall n t m m', inv n t m -> set_equiv m m' -> inv n t m'.
Proof.
  intros n t m m' [] E. constructor; auto. intros e. rewrite <- (E e). apply inv_set0.
Qed.

Lemma inv_mono : forall n n' t m, inv n t m -> n <= n' -> inv n' t m.
Proof. intros n n' t m [] H. constructor; auto; lia. Qed.

(* storing, with growth if needed *)
Lemma insert_entry_ok : forall P npf v t m n h d k,
  prime P -> P < 2 ^ 56 -> P < Z.of_nat npf -> 5 <= P ->
  inv n t m -> 3 * (n + 1) <= P -> ht_size t <= P -> 0 < h < two64 ->
  looked (ht_table t) (ht_size t) h d k ->
  1 <= ppos (ht_size t) h k <= ht_size t ->
  exists t', insert_entry_2 TYPE same 2 npf (fun _ => true) v t h (ppos (ht_size t) h k) d = Ok t'
    /\ inv (n + 1) t' (store_map m h d) /\ ht_size t' <= P.
Proof.
  intros P npf v t m n h d k HP HP56 Hnpf H5 I Hn Hsz Hh L Hb.
  pose proof (inv_core _ _ _ I) as C. pose proof (inv_reach _ _ _ I) as R.
  pose proof (inv_load _ _ _ I) as [Hf0 Hl]. pose proof (inv_ops _ _ _ I) as Hops.
  destruct (Z_le_gt_dec (100 * (ht_filled t + 1)) (90 * ht_size t)) as [Hle|Hgt].
  - assert (Hg : good_size (ht_size t)) by (destruct (inv_size _ _ _ I) as [|[H1 H2]]; [assumption|lia]).
    destruct (insert_entry_small 1 npf (fun _ => true) v t m n h d k I Hg Hh L Hb Hle ltac:(lia))
      as (t' & E & I' & S' & _).
    exists t'. split; [exact E|]. split; [exact I'|lia].
  - assert (Hsize1 : 1 <= ht_size t) by lia.
    destruct (znth_in _ (ht_table t) (ppos (ht_size t) h k)) as [s Es].
    { pose proof (core_len _ _ C). lia. }
    destruct (store_core _ _ _ _ _ C R Hb Hh L) as [C' R'].
    pose proof (store_set _ _ _ _ _ _ C R (inv_set _ _ _ I) L Hb) as S'.
    pose proof (store_chain _ _ _ _ _ _ C (inv_chain _ _ _ I) L Hb s Es) as Ch'.
    set (tab' := zset (ht_table t) (ppos (ht_size t) h k) (Some (h, d))) in *.
    set (first' := if hashval s =? 0 then ppos (ht_size t) h k :: ht_first t else ht_first t) in *.
    destruct (grow_prime npf (ht_size t) P HP HP56 ltac:(lia) ltac:(lia) H5 Hnpf) as (q & Eq & Hg & Hq).
    destruct (entries_of_ok v tab' (ht_size t) first' C' Ch') as (EP & EI & EL).
    assert (EL2 : zlen (entries_of v tab' first') <= n + 1).
    { assert (U : zlen (used_by_index tab') <= n + 1).
      { eapply Z.le_trans; [apply used_zset_le; pose proof (core_len _ _ C); lia|].
        pose proof (inv_used _ _ _ I). lia. }
      eapply Z.le_trans; [|exact U]. apply zlen_le_of_incl; [now apply pairs_NoDup|].
      intros e Ie. apply (used_In tab' _ e C'). now apply EI. }
    destruct (rehash_fold (entries_of v tab' first') 0 npf (fun _ => true) v
                {| ht_size := q; ht_filled := 0; ht_table := repeat None (Z.to_nat (1 + q)); ht_first := [] |}
                [] 0 (fresh_inv q (or_introl Hg))) as (t' & E & I' & S2 & F2); cbn [ht_size ht_filled].
    + exact Hg.
    + lia.
    + exact EP.
    + intros e Ie. apply EI in Ie. destruct Ie as [i Ei]. eapply core_hash; eauto.
    + intros e e' [].
    + lia.
    + exists t'. split.
      * cbn [insert_entry_2]. unfold slot_at. rewrite Es. cbn [obind].
        fold tab'. fold first'.
        unfold u64 at 1 2 3. rewrite (Z.mod_small (ht_filled t + 1)) by lia.
        rewrite (Z.mod_small (90 * ht_size t)) by lia.
        rewrite (Z.mod_small (100 * (ht_filled t + 1))) by lia.
        replace (90 * ht_size t <? 100 * (ht_filled t + 1)) with true by lia.
        rewrite Eq. cbn [obind].
        replace (zlen tab' <? 1 + ht_size t) with false.
        2:{ pose proof (core_len _ _ C'). lia. }
        exact E.
      * cbn [ht_size] in S2. split; [|lia].
        apply (inv_mono (0 + zlen (entries_of v tab' first'))); [|lia].
        eapply inv_equiv; [exact I'|].
        intros e. cbn [app]. rewrite EI. symmetry. apply S'.
Qed.

(* ------------------------------------------------------------------ *)
(* Whole histories. *)
Definition run_op (npf : nat) (alloc : Z -> bool) (v : variant) (t : htab TYPE) (o : op TYPE)
  : outcome (htab TYPE * answer TYPE) :=
  match o with
  | Insert h d =>
      '(t', c) <- ht_insert TYPE same npf alloc v t h d ;; Ok (t', Code c)
  | Overwrite h d =>
      '(t', c) <- ht_overwrite TYPE same npf alloc v t h d ;; Ok (t', Code c)
  | Find h x => r <- ht_find TYPE same t h x ;; Ok (t, Found r)
  end.

Fixpoint run (npf : nat) (alloc : Z -> bool) (v : variant) (t : htab TYPE) (ops : list (op TYPE))
  : outcome (list (answer TYPE) * htab TYPE) :=
  match ops with
  | [] => Ok ([], t)
  | o :: r =>
      '(t', a) <- run_op npf alloc v t o ;;
      '(l, t'') <- run npf alloc v t' r ;; Ok (a :: l, t'')
  end.

Lemma key_hash_ok : forall h, is_u64 h -> 0 < nonzero_hash h < two64.
Proof. intros h H; unfold nonzero_hash, is_u64 in *. destruct (h =? 0) eqn:E; lia. Qed.

Lemma looked_dec : forall n t m h d k, inv n t m -> 0 < h < two64 ->
  looked (ht_table t) (ht_size t) h d k ->
  (exists e, znth (ht_table t) (ppos (ht_size t) h k) = Some (Some e) /\ 0 < fst e
             /\ find (hits h d) m = Some e)
  \/ (znth (ht_table t) (ppos (ht_size t) h k) = Some None /\ find (hits h d) m = None).
Proof.
  intros n t m h d k I Hh L. pose proof (inv_core _ _ _ I) as C.
  pose proof L as (Hk & Hj & [He|(e & E & Hhit)]).
  - right. split; [exact He|]. eapply find_spec_miss; eauto using inv_reach, inv_set.
  - left. exists e. split; [exact E|]. split; [apply (core_hash _ _ C _ _ E)|].
    eapply find_spec_hit; eauto using inv_set.
Qed.

Lemma run_op_ok : forall P npf v t m n o,
  prime P -> P < 2 ^ 56 -> P < Z.of_nat npf -> 5 <= P ->
  inv n t m -> 3 * (n + 1) <= P -> ht_size t <= P -> is_u64 (hash_of TYPE o) -> 0 <= n ->
  exists t' a m', run_op npf (fun _ => true) v t o = Ok (t', a) /\ inv (n + 1) t' m' /\ ht_size t' <= P
     /\ (forall r, map_run TYPE same (o :: r) m
                   = (a :: fst (map_run TYPE same r m'), snd (map_run TYPE same r m'))).
Proof.
  intros P npf v t m n o HP HP56 Hnpf H5 I Hn Hsz Hu Hn0.
  destruct o as [h d|h d|h d]; simpl in Hu; pose proof (key_hash_ok h Hu) as Hh;
    destruct (inv_lookup n t m (nonzero_hash h) d I Hh) as (k & L & E & Hb);
    destruct (looked_dec n t m (nonzero_hash h) d k I Hh L) as [(e & Ez & He & F)|(Ez & F)];
    cbn [run_op]; unfold ht_insert, ht_overwrite, ht_find;
    rewrite E; cbn [obind]; unfold slot_at; rewrite ?Ez; cbn [obind hashval].
  - (* insert, present *)
    destruct e as [h' d']. simpl in He. cbn [hashval]. replace (h' =? 0) with false by lia.
    cbn [obind]. exists t, (Code (-1)), m. split; [reflexivity|].
    split; [eapply inv_mono; eauto; lia|]. split; [exact Hsz|].
    intros r. cbn [map_run]. unfold map_insert, map_find. change (key_hash h) with (nonzero_hash h).
    rewrite F. cbn [option_map]. destruct (map_run TYPE same r m); reflexivity.
  - (* insert, absent *)
    rewrite Z.eqb_refl.
    destruct (insert_entry_ok P npf v t m n (nonzero_hash h) d k) as (t' & E' & I' & S'); auto.
    rewrite E'. cbn [obind]. exists t', (Code 0), (m ++ [(nonzero_hash h, d)]).
    split; [reflexivity|]. split.
    + unfold store_map in I'. rewrite F in I'. exact I'.
    + split; [exact S'|]. intros r. cbn [map_run]. unfold map_insert, map_find.
      change (key_hash h) with (nonzero_hash h).
      rewrite F. cbn [option_map]. destruct (map_run TYPE same r _); reflexivity.
  - (* overwrite, present *)
    destruct (insert_entry_ok P npf v t m n (nonzero_hash h) d k) as (t' & E' & I' & S'); auto.
    rewrite E'. cbn [obind]. eexists t', (Code 0), _.
    split; [reflexivity|]. split; [exact I'|]. split; [exact S'|].
    intros r. cbn [map_run]. unfold map_overwrite, map_find, store_map.
    change (key_hash h) with (nonzero_hash h).
    rewrite F. cbn [option_map]. destruct (map_run TYPE same r _); reflexivity.
  - (* overwrite, absent *)
    destruct (insert_entry_ok P npf v t m n (nonzero_hash h) d k) as (t' & E' & I' & S'); auto.
    rewrite E'. cbn [obind]. eexists t', (Code 0), _.
    split; [reflexivity|]. split; [exact I'|]. split; [exact S'|].
    intros r. cbn [map_run]. unfold map_overwrite, map_find, store_map.
    change (key_hash h) with (nonzero_hash h).
    rewrite F. cbn [option_map]. destruct (map_run TYPE same r _); reflexivity.
  - (* find, present *)
    destruct e as [h' d']. simpl in He. replace (h' =? 0) with false by lia. cbn [obind].
    exists t, (Found (Some d')), m. split; [reflexivity|].
    split; [eapply inv_mono; eauto; lia|]. split; [exact Hsz|].
    intros r. cbn [map_run]. unfold map_find. change (key_hash h) with (nonzero_hash h).
    rewrite F. cbn [option_map snd]. destruct (map_run TYPE same r m); reflexivity.
  - (* find, absent *)
    exists t, (Found None), m. split; [reflexivity|].
    split; [eapply inv_mono; eauto; lia|]. split; [exact Hsz|].
    intros r. cbn [map_run]. unfold map_find. change (key_hash h) with (nonzero_hash h).
    rewrite F. cbn [option_map snd]. destruct (map_run TYPE same r m); reflexivity.
Qed.

Lemma run_ok : forall ops P npf v t m n,
  prime P -> P < 2 ^ 56 -> P < Z.of_nat npf -> 5 <= P ->
  inv n t m -> 0 <= n -> 3 * (n + zlen ops) <= P -> ht_size t <= P ->
  Forall (fun o => is_u64 (hash_of TYPE o)) ops ->
  exists t', run npf (fun _ => true) v t ops = Ok (fst (map_run TYPE same ops m), t')
     /\ inv (n + zlen ops) t' (snd (map_run TYPE same ops m)).
Proof.
  induction ops as [|o ops IH]; intros P npf v t m n HP HP56 Hnpf H5 I Hn0 Hn Hsz Hu.
  - exists t. split; [reflexivity|]. rewrite zlen_nil, Z.add_0_r. exact I.
  - rewrite zlen_cons in *. pose proof (zlen_nonneg _ ops).
    inversion Hu as [|? ? Hu1 Hu2]; subst.
    destruct (run_op_ok P npf v t m n o) as (t1 & a & m1 & E1 & I1 & S1 & M1); auto; try lia.
    destruct (IH P npf v t1 m1 (n + 1)) as (t2 & E2 & I2); auto; try lia.
    exists t2. rewrite (M1 ops). cbn [fst snd run]. rewrite E1. cbn [obind]. rewrite E2. cbn [obind].
    split; [reflexivity|]. replace (n + (1 + zlen ops)) with (n + 1 + zlen ops) by lia. exact I2.
Qed.

Lemma init_ok : forall npf P n0, prime P -> P < 2 ^ 56 -> P < Z.of_nat npf -> 5 <= P ->
  0 <= n0 <= P ->
  exists t, ht_init TYPE npf (fun _ => true) n0 = Ok (Some t) /\ inv 0 t [] /\ ht_size t <= P.
Proof.
  intros npf P n0 HP HP56 Hnpf H5 Hn. unfold ht_init.
  assert (Hq : exists q, next_prime npf n0 = Ok q /\ (good_size q \/ q = 1) /\ q <= P).
  { destruct (Z_lt_le_dec n0 4).
    - assert (n0 = 0 \/ n0 = 1 \/ n0 = 2 \/ n0 = 3) as [->|[->|[->| ->]]] by lia.
      1,2: exists 1; (split; [destruct npf; [lia|reflexivity]|]); split; [right; reflexivity|lia].
      all: exists 5; (split; [destruct npf as [|[|npf]]; try lia; reflexivity|]);
        split; [left; split; [|lia]|lia];
        apply (no_small_divisor_prime 5 3); try lia;
        intros k Hk D; assert (k = 2) by lia; subst; apply Z.mod_divide in D; [discriminate|lia].
    - destruct (next_prime_spec npf n0 P) as (q & E & Hq & Hr & _); try lia; auto.
      exists q. split; [exact E|]. split; [left|lia]. split; [exact Hq|].
      split; [|lia]. destruct (Z.eq_dec q 4) as [->|]; [|lia].
      exfalso. apply (even_not_prime 4); [lia|reflexivity|exact Hq]. }
  destruct Hq as (q & E & Hg & Hle). rewrite E. cbn [obind].
  eexists; split; [reflexivity|]. replace (q + 1) with (1 + q) by lia.
  split; [apply fresh_inv; exact Hg|exact Hle].
Qed.

Lemma iterate_ok : forall n t m, inv n t m ->
  forall e, In e m <-> In e (used_by_chain (ht_table t) (ht_first t)).
Proof.
  intros n t m I e. rewrite (inv_set _ _ _ I e), chain_In.
  destruct (inv_chain _ _ _ I) as [_ CI]. split.
  - intros (i & E). exists i. split; [apply CI; eauto|exact E].
  - intros (i & _ & E). eauto.
Qed.

Lemma iterate_nodup : forall n t m, inv n t m ->
  ForallOrdPairs (fun e e' => ~ clash e e') (used_by_chain (ht_table t) (ht_first t)).
Proof.
  intros n t m I. eapply chain_pairs; [exact (inv_core _ _ _ I)|].
  apply (inv_chain _ _ _ I).
Qed.

(* the specification map has pairwise different keys *)
Lemma map_op_pairs : forall h d m,
  ForallOrdPairs (fun e e' => ~ clash e e') m ->
  ForallOrdPairs (fun e e' => ~ clash e e') (store_map m h d).
Proof.
  intros h d m F. unfold store_map. destruct (find (hits h d) m) as [e0|] eqn:E.
  - clear E.
    assert (G : forall e, clash (if hits h d e then (h, d) else e) e).
    { intros e. destruct (hits h d e) eqn:Eh; [|apply clash_refl].
      apply clash_sym. now apply hits_clash. }
    induction F as [|e m F1 _ IH]; [constructor|]. cbn [map]. constructor; [|exact IH].
    rewrite Forall_forall in *. intros e' I. apply in_map_iff in I. destruct I as (e2 & <- & I2).
    intros Hc. apply (F1 e2 I2).
    eapply clash_trans; [apply clash_sym, G|]. eapply clash_trans; [exact Hc|apply G].
  - assert (N : forall e, In e m -> ~ clash e (h, d)).
    { intros e I Hc. apply hits_clash in Hc. rewrite (find_none _ _ E e I) in Hc. discriminate. }
    clear E. induction F as [|e m F1 F2 IH]; cbn [app]; [repeat constructor|].
    constructor; [|apply IH; intros; apply N; now right].
    rewrite Forall_forall in *. intros e' I. apply in_app_iff in I.
    destruct I as [I|[<-|[]]]; [now apply F1|]. apply N. now left.
Qed.

Lemma map_run_pairs : forall ops m,
  ForallOrdPairs (fun e e' => ~ clash e e') m ->
  ForallOrdPairs (fun e e' => ~ clash e e') (snd (map_run TYPE same ops m)).
Proof.
  induction ops as [|o ops IH]; intros m F; [exact F|].
  destruct o as [h d|h d|h d]; cbn [map_run].
  - unfold map_insert, map_find. destruct (find (hits (key_hash h) d) m) eqn:E; cbn [option_map].
    + specialize (IH m F). destruct (map_run TYPE same ops m). exact IH.
    + pose proof (map_op_pairs (key_hash h) d m F) as G. unfold store_map in G. rewrite E in G.
      specialize (IH _ G). destruct (map_run TYPE same ops (m ++ _)). exact IH.
  - unfold map_overwrite, map_find.
    pose proof (map_op_pairs (key_hash h) d m F) as G. unfold store_map in G.
    destruct (find (hits (key_hash h) d) m) eqn:E; cbn [option_map]; specialize (IH _ G);
      destruct (map_run TYPE same ops _); exact IH.
  - specialize (IH m F). destruct (map_run TYPE same ops m). exact IH.
Qed.

Lemma iterate_perm : forall n t m, inv n t m ->
  ForallOrdPairs (fun e e' => ~ clash e e') m ->
  Permutation (used_by_chain (ht_table t) (ht_first t)) m.
Proof.
  intros n t m I F. apply NoDup_Permutation.
  - apply pairs_NoDup. eapply iterate_nodup; eauto.
  - now apply pairs_NoDup.
  - intros e. symmetry. eapply iterate_ok; eauto.
Qed.
End Htab.
