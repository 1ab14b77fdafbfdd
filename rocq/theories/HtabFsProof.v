(* Proofs about the fixed-size hash table. *)
From Verif Require Import Base PrimeModel PrimeProof HtabModel HtabSpec HtabProof.
From Coq Require Import Znumtheory.

Section Fs.
Variable TYPE : Type.
Variable same : TYPE -> TYPE -> bool.
Hypothesis same_refl : forall a, same a a = true.
Hypothesis same_sym : forall a b, same a b = true -> same b a = true.
Hypothesis same_trans : forall a b c, same a b = true -> same b c = true -> same a c = true.

Notation hits := (hits TYPE same).
Notation core := (core TYPE same).
Notation reach := (reach TYPE).
Notation looked := (looked TYPE same).
Notation same_set := (same_set TYPE).
Notation store_map := (store_map TYPE same).

Record finv (n : Z) (t : fshash TYPE) (m : list (Z * TYPE)) : Prop := {
  finv_core : core (fs_table t) (fs_nslots t);
  finv_reach : reach (fs_table t) (fs_nslots t);
  finv_size : good_size (fs_nslots t);
  finv_used : zlen (used_by_index (fs_table t)) <= n;
  finv_set : same_set (fs_table t) m
}.

Definition fs_run_op (t : fshash TYPE) (o : op TYPE) : outcome (fshash TYPE * answer TYPE) :=
  match o with
  | Insert h d => '(t', c) <- fs_insert TYPE same t h d ;; Ok (t', Code c)
  | Overwrite h d => '(t', c) <- fs_overwrite TYPE same t h d ;; Ok (t', Code c)
  | Find h x => r <- fs_find TYPE same t h x ;; Ok (t, Found r)
  end.

Fixpoint fs_run (t : fshash TYPE) (ops : list (op TYPE))
  : outcome (list (answer TYPE) * fshash TYPE) :=
  match ops with
  | [] => Ok ([], t)
  | o :: r => '(t', a) <- fs_run_op t o ;; '(l, t'') <- fs_run t' r ;; Ok (a :: l, t'')
  end.

Lemma finv_lookup : forall n t m h v, finv n t m -> n < fs_nslots t -> 0 < h < two64 ->
  exists k, looked (fs_table t) (fs_nslots t) h v k
            /\ lookup TYPE same (fs_table t) (fs_nslots t) h v = Ok (ppos (fs_nslots t) h k)
            /\ 1 <= ppos (fs_nslots t) h k <= fs_nslots t.
Proof.
  intros n t m h v I Hn Hh. pose proof (finv_core _ _ _ I) as C.
  pose proof (finv_size _ _ _ I) as Hg.
  destruct (lookup_ok TYPE same same_refl same_sym same_trans (fs_table t) (fs_nslots t) h v Hg C Hh) as (k & L & E).
  { destruct Hg. apply (exists_empty TYPE same); [exact C| |lia]. pose proof (finv_used _ _ _ I). lia. }
  exists k. split; [exact L|]. split; [exact E|]. destruct Hg. apply ppos_bound; lia.
Qed.

Lemma flooked_dec : forall n t m h d k, finv n t m -> 0 < h < two64 ->
  looked (fs_table t) (fs_nslots t) h d k ->
  (exists e, znth (fs_table t) (ppos (fs_nslots t) h k) = Some (Some e) /\ 0 < fst e
             /\ find (hits h d) m = Some e)
  \/ (znth (fs_table t) (ppos (fs_nslots t) h k) = Some None /\ find (hits h d) m = None).
Proof.
  intros n t m h d k I Hh L. pose proof (finv_core _ _ _ I) as C.
  pose proof L as (Hk & Hj & [He|(e & E & Hhit)]).
  - right. split; [exact He|]. eapply (find_spec_miss TYPE same); eauto using finv_reach, finv_set.
  - left. exists e. split; [exact E|]. split; [apply (core_hash _ _ _ _ C _ _ E)|].
    eapply (find_spec_hit TYPE same); eauto using finv_set.
Qed.

Lemma finv_store : forall n t m h d k, finv n t m -> 0 < h < two64 ->
  looked (fs_table t) (fs_nslots t) h d k ->
  1 <= ppos (fs_nslots t) h k <= fs_nslots t ->
  finv (n + 1) {| fs_nslots := fs_nslots t;
                  fs_table := zset (fs_table t) (ppos (fs_nslots t) h k) (Some (h, d)) |}
       (store_map m h d).
Proof.
  intros n t m h d k I Hh L Hb. pose proof (finv_core _ _ _ I) as C.
  destruct (store_core TYPE same same_refl same_sym same_trans _ _ _ _ _ C (finv_reach _ _ _ I) Hb Hh L)
    as [C' R'].
  constructor; cbn [fs_nslots fs_table]; auto.
  - exact (finv_size _ _ _ I).
  - eapply Z.le_trans; [apply (used_zset_le TYPE same same_refl same_sym same_trans); pose proof (core_len _ _ _ _ C); lia|].
    pose proof (finv_used _ _ _ I). lia.
  - eapply (store_set TYPE same); eauto using finv_set, finv_reach.
Qed.

Lemma fs_run_ok : forall ops t m n,
  finv n t m -> n + stores ops < fs_nslots t -> 0 <= n ->
  Forall (fun o => 0 < hash_of TYPE o < two64) ops ->
  exists t', fs_run t ops = Ok (fst (map_run TYPE same ops m), t').
Proof.
  induction ops as [|o ops IH]; intros t m n I Hn H0 Hu.
  - exists t. reflexivity.
  - inversion Hu as [|? ? Hu1 Hu2]; subst.
    assert (Hst : 0 <= stores ops) by apply zlen_nonneg.
    assert (KH : forall h, 0 < h -> key_hash h = h).
    { intros h Hh. unfold key_hash. now replace (h =? 0) with false by lia. }
    destruct o as [h d|h d|h d]; simpl in Hu1;
    unfold stores in Hn; cbn [filter] in Hn; rewrite ?zlen_cons in Hn; fold (stores ops) in Hn;
    destruct (finv_lookup n t m h d I ltac:(lia) Hu1) as (k & L & E & Hb);
    pose proof (finv_store n t m h d k I Hu1 L Hb) as IS;
    unfold HtabProof.store_map in IS;
    destruct (flooked_dec n t m h d k I Hu1 L) as [(e & Ez & He & F)|(Ez & F)];
    rewrite F in IS;
    cbn [fs_run fs_run_op map_run]; unfold fs_insert, fs_overwrite, fs_find, map_insert, map_overwrite, map_find;
    rewrite E; cbn [obind]; unfold slot_at; rewrite Ez; cbn [obind hashval];
    rewrite KH by lia; rewrite ?F; cbn [option_map].
    + destruct e as [h' d']. simpl in He. cbn [hashval]. replace (h' =? 0) with false by lia. cbn [obind].
      destruct (IH t m n I ltac:(lia) H0 Hu2) as (t' & E'). rewrite E'. cbn [obind].
      destruct (map_run TYPE same ops m). eauto.
    + rewrite Z.eqb_refl. cbn [obind].
      destruct (IH _ _ (n + 1) IS ltac:(cbn [fs_nslots]; lia) ltac:(lia) Hu2) as (t' & E'). rewrite E'. cbn [obind].
      destruct (map_run TYPE same ops _). eauto.
    + destruct (IH _ _ (n + 1) IS ltac:(cbn [fs_nslots]; lia) ltac:(lia) Hu2) as (t' & E'). rewrite E'. cbn [obind].
      destruct (map_run TYPE same ops _). eauto.
    + destruct (IH _ _ (n + 1) IS ltac:(cbn [fs_nslots]; lia) ltac:(lia) Hu2) as (t' & E'). rewrite E'. cbn [obind].
      destruct (map_run TYPE same ops _). eauto.
    + destruct e as [h' d']. simpl in He. replace (h' =? 0) with false by lia. cbn [obind].
      destruct (IH t m n I ltac:(lia) H0 Hu2) as (t' & E'). rewrite E'. cbn [obind].
      destruct (map_run TYPE same ops m). eauto.
    + destruct (IH t m n I ltac:(lia) H0 Hu2) as (t' & E'). rewrite E'. cbn [obind].
      destruct (map_run TYPE same ops m). eauto.
Qed.

Lemma fs_init_ok : forall npf P n0, prime P -> P < 2 ^ 56 -> P < Z.of_nat npf ->
  0 <= n0 -> Z.max (n0 * 3 / 2) 10 <= P ->
  exists t, fs_init TYPE npf (fun _ => true) n0 = Ok (Some t) /\ finv 0 t []
            /\ Z.max (n0 * 3 / 2) 10 <= fs_nslots t.
Proof.
  intros npf P n0 HP HP56 Hnpf H0 Hn. unfold fs_init.
  assert (n0 * 3 < two64).
  { pose proof (Z.div_mod (n0 * 3) 2 ltac:(lia)). pose proof (Z.mod_pos_bound (n0 * 3) 2 ltac:(lia)). lia. }
  change ((two64 - 1) / 3 * 2) with 12297829382473034410.
  replace (12297829382473034410 <=? n0) with false by lia.
  unfold u64. rewrite (Z.mod_small (n0 * 3)) by lia.
  destruct (next_prime_spec npf (Z.max (n0 * 3 / 2) 10) P) as (q & E & Hq & Hr & _); try lia; auto.
  rewrite E. cbn [obind]. eexists; split; [reflexivity|]. cbn [fs_nslots].
  split; [|lia].
  assert (Hg : good_size q) by (split; [exact Hq|lia]).
  destruct (fresh_inv TYPE same q (or_introl Hg)) as [C R _ U _ _ S _].
  cbn [ht_table ht_size ht_filled] in *. replace (q + 1) with (1 + q) by lia.
  constructor; cbn [fs_table fs_nslots]; auto.
Qed.
End Fs.
