(* C10, C11: the hash tables behave as finite maps. *)
From Verif Require Import Base HashModel PrimeModel PrimeProof PrimeProps HtabModel HtabSpec HtabProof HtabFsProof.
From Coq Require Import Znumtheory Permutation.

(* [same] must be an equivalence: what every COMPARE in the code base is
   (strcmp, or constant equality for key-by-hash-value tables). *)
Definition equivalence {T : Type} (same : T -> T -> bool) : Prop :=
  (forall a, same a a = true) /\
  (forall a b, same a b = true -> same b a = true) /\
  (forall a b c, same a b = true -> same b c = true -> same a c = true).

(* C10.  A fresh table answers every history of insert, overwrite and find
   exactly as the finite map [map_run] does, never reads outside its array and
   never loops, whatever the hash values, the initial size and the number of
   growths.  P is any prime bounding the table sizes that may be needed;
   memory allocation succeeds.  At the end, iteration visits exactly the
   entries of the map, each once. *)
Theorem C10_dynamic_hash_is_finite_map :
  forall (T : Type) (same : T -> T -> bool) (v : variant) (P n : Z) (fuel : nat) (ops : list (op T)),
    equivalence same ->
    prime P -> 5 <= P < 2 ^ 56 -> P < Z.of_nat fuel ->
    0 <= n <= P -> 3 * zlen ops <= P ->
    Forall (fun o => is_u64 (hash_of T o)) ops ->
    exists t t',
      ht_init T fuel (fun _ => true) n = Ok (Some t) /\
      run T same fuel (fun _ => true) v t ops = Ok (fst (map_run T same ops []), t') /\
      Permutation (ht_iterate T t') (map snd (snd (map_run T same ops []))).
Proof.
  intros T same v P n fuel ops (E1 & E2 & E3) HP HP5 Hf Hn Hops Hh.
  destruct (init_ok T same fuel P n HP ltac:(lia) Hf ltac:(lia) Hn) as (t & Et & It & St).
  destruct (run_ok T same E1 E2 E3 ops P fuel v t [] 0 HP ltac:(lia) Hf ltac:(lia) It ltac:(lia)
              ltac:(lia) St Hh) as (t' & Er & Ir).
  exists t, t'. split; [exact Et|]. split; [exact Er|].
  unfold ht_iterate. apply Permutation_map.
  eapply (iterate_perm T same); eauto.
  apply (map_run_pairs T same E1 E2 E3). constructor.
Qed.
Print Assumptions C10_dynamic_hash_is_finite_map.

Definition demo_ops : list (op Z) :=
  [Insert 7 70; Insert 12 120; Insert 0 10; Insert 7 71; Overwrite 12 121; Find 7 0; Find 12 0;
   Find 17 0; Insert 17 170; Insert 22 220; Insert 27 270; Insert 32 320; Find 32 0; Find 1 0].
Definition all_same (a b : Z) : bool := true.

(* the hypotheses are met, and the history includes growth and collisions *)
Example C10_nonvacuous :
  equivalence all_same /\ prime 101 /\ 3 * zlen demo_ops <= 101 /\
  Forall (fun o => is_u64 (hash_of Z o)) demo_ops /\
  fst (map_run Z all_same demo_ops [])
  = [Code 0; Code 0; Code 0; Code (-1); Code 0; Found (Some 70); Found (Some 121); Found None;
     Code 0; Code 0; Code 0; Code 0; Found (Some 320); Found (Some 10)].
Proof.
  split; [repeat split; auto|]. split; [apply C09_next_prime_nonvacuous|].
  split; [vm_compute; congruence|]. split; [|reflexivity].
  unfold demo_ops. repeat (apply Forall_cons; [unfold is_u64; simpl; lia|]). apply Forall_nil.
Qed.

(* What the map semantics gives the user: the first inserted value stays. *)
Theorem C10_first_insert_wins :
  forall (T : Type) (same : T -> T -> bool) (m : list (Z * T)) h d d',
    equivalence same -> same d d' = true -> map_find T same m h d = None ->
    map_find T same (fst (map_insert T same m h d)) h d' = Some d /\
    map_insert T same (fst (map_insert T same m h d)) h d' = (fst (map_insert T same m h d), -1).
Proof.
  intros T same m h d d' (E1 & E2 & E3) Hs Hm.
  assert (MI : map_insert T same m h d = (m ++ [(h, d)], 0)) by (unfold map_insert; now rewrite Hm).
  rewrite MI. cbn [fst].
  assert (F : find (hits T same h d') (m ++ [(h, d)]) = Some (h, d)).
  { unfold map_find in Hm. destruct (find (hits T same h d) m) eqn:F0; [discriminate|].
    clear Hm MI. induction m as [|e m IH]; simpl.
    - unfold hits; simpl. now rewrite Z.eqb_refl, Hs.
    - simpl in F0. destruct (hits T same h d e) eqn:He; [discriminate|].
      replace (hits T same h d' e) with false; [apply IH; exact F0|].
      symmetry. destruct (hits T same h d' e) eqn:H'; [|reflexivity]. exfalso.
      unfold hits in *. apply andb_true_iff in H'. destruct H' as [A B].
      rewrite A in He. simpl in He. rewrite (E3 _ _ _ B (E2 _ _ Hs)) in He. discriminate. }
  unfold map_insert, map_find. rewrite F. split; reflexivity.
Qed.
Print Assumptions C10_first_insert_wins.

Example C10_first_insert_nonvacuous :
  map_find Z all_same [(3, 30)] 7 70 = None /\ all_same 70 71 = true.
Proof. split; reflexivity. Qed.

(* If growing the table fails for lack of memory, the old array is kept with
   the new size: the insert reports success, and a later lookup reads outside
   the array. *)
Theorem C10_allocation_failure_refuted :
  exists (alloc : Z -> bool) (t t' : htab Z) (ops : list (op Z)),
    ht_init Z 20 alloc 5 = Ok (Some t) /\
    run Z all_same 20 alloc Plain t ops
      = Ok ([Code 0; Code 0; Code 0; Code 0; Code 0], t') /\
    ht_find Z all_same t' 7 0 = UB.
Proof.
  exists (fun n => n <=? 6).
  exists {| ht_size := 5; ht_filled := 0;
            ht_table := [None; None; None; None; None; None];
            ht_first := [] |}.
  exists {| ht_size := 11; ht_filled := 0;
            ht_table := [None; Some (5, 50); Some (1, 10); Some (2, 20); Some (3, 30); Some (4, 40)];
            ht_first := [] |}.
  exists [Insert 1 10; Insert 2 20; Insert 3 30; Insert 4 40; Insert 5 50].
  split; [vm_compute; reflexivity|]. split; vm_compute; reflexivity.
Qed.
Print Assumptions C10_allocation_failure_refuted.

(* dynamicsizehash.c:138-139 promises that growing maintains the iteration
   order; in the REVERSE variant (libasm's symbol table) each growth reverses
   it: four inserts iterate last-to-first, a fifth one first-to-last. *)
Theorem C10_iteration_order_refuted :
  exists (t t4 t5 : htab Z),
    ht_init Z 20 (fun _ => true) 5 = Ok (Some t) /\
    run Z all_same 20 (fun _ => true) IterReverse t
        [Insert 1 10; Insert 2 20; Insert 3 30; Insert 4 40]
      = Ok ([Code 0; Code 0; Code 0; Code 0], t4) /\
    run Z all_same 20 (fun _ => true) IterReverse t4 [Insert 5 50] = Ok ([Code 0], t5) /\
    ht_iterate Z t4 = [40; 30; 20; 10] /\
    ht_iterate Z t5 = [10; 20; 30; 40; 50].
Proof.
  exists {| ht_size := 5; ht_filled := 0;
            ht_table := [None; None; None; None; None; None];
            ht_first := [] |}.
  exists {| ht_size := 5; ht_filled := 4;
            ht_table := [None; None; Some (1, 10); Some (2, 20); Some (3, 30); Some (4, 40)];
            ht_first := [5; 4; 3; 2] |}.
  exists {| ht_size := 11; ht_filled := 5;
            ht_table := [None; None; Some (1, 10); Some (2, 20); Some (3, 30); Some (4, 40); Some (5, 50);
                         None; None; None; None; None];
            ht_first := [2; 3; 4; 5; 6] |}.
  split; [vm_compute; reflexivity|]. split; [vm_compute; reflexivity|].
  split; [vm_compute; reflexivity|]. split; vm_compute; reflexivity.
Qed.
Print Assumptions C10_iteration_order_refuted.

(* ------------------------------------------------------------------ *)
(* C11.  A table created for n elements answers every history with at most n
   stores like the finite map, provided no hash value is 0.  _partial: see the
   refutation for hash value 0. *)
Theorem C11_fixed_hash_is_finite_map_partial :
  forall (T : Type) (same : T -> T -> bool) (P n : Z) (fuel : nat) (ops : list (op T)),
    equivalence same ->
    prime P -> P < 2 ^ 56 -> P < Z.of_nat fuel ->
    0 <= n -> Z.max (n * 3 / 2) 10 <= P ->
    stores ops <= n ->
    Forall (fun o => 0 < hash_of T o < 2 ^ 64) ops ->
    exists t t',
      fs_init T fuel (fun _ => true) n = Ok (Some t) /\
      fs_run T same t ops = Ok (fst (map_run T same ops []), t').
Proof.
  intros T same P n fuel ops (E1 & E2 & E3) HP HP56 Hf Hn HnP Hst Hh.
  destruct (fs_init_ok T same fuel P n HP ltac:(lia) Hf Hn HnP) as (t & Et & It & St).
  destruct (fs_run_ok T same E1 E2 E3 ops t [] 0 It) as (t' & Er); try lia; auto.
  exists t, t'. auto.
Qed.
Print Assumptions C11_fixed_hash_is_finite_map_partial.

Definition demo_fs : list (op Z) :=
  [Overwrite 7 70; Overwrite 18 180; Overwrite 7 71; Insert 29 290; Find 7 0; Find 18 0; Find 40 0].
Example C11_nonvacuous :
  equivalence all_same /\ prime 101 /\ Z.max (4 * 3 / 2) 10 <= 101 /\ stores demo_fs = 4 /\
  Forall (fun o => 0 < hash_of Z o < 2 ^ 64) demo_fs /\
  fst (map_run Z all_same demo_fs [])
  = [Code 0; Code 0; Code 0; Code 0; Found (Some 71); Found (Some 180); Found None].
Proof.
  split; [repeat split; auto|]. split; [apply C09_next_prime_nonvacuous|].
  split; [vm_compute; congruence|]. split; [reflexivity|]. split; [|reflexivity].
  unfold demo_fs. repeat (apply Forall_cons; [simpl; lia|]). apply Forall_nil.
Qed.

(* Hash value 0 is the mark of an empty slot: an entry stored under it is not
   found again.  There are names with hash value 0. *)
Theorem C11_hash_zero_refuted :
  exists (name : bytes) (t t' : fshash Z),
    Forall (fun c => 0 < c < 256) name /\
    elf_hash (name ++ [0]) = Ok 0 /\
    fs_init Z 20 (fun _ => true) 4 = Ok (Some t) /\
    fs_run Z all_same t [Overwrite 0 70; Find 0 0] = Ok ([Code 0; Found None], t').
Proof.
  exists [15; 15; 15; 15; 15; 16; 16].
  exists {| fs_nslots := 11; fs_table := repeat None 12 |}.
  exists {| fs_nslots := 11; fs_table := [None; Some (0, 70)] ++ repeat None 10 |}.
  split; [repeat (apply Forall_cons; [lia|]); apply Forall_nil|].
  split; [vm_compute; reflexivity|]. split; vm_compute; reflexivity.
Qed.
Print Assumptions C11_hash_zero_refuted.
