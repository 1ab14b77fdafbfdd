(* Proofs about nlist. *)
From Verif Require Import Base PrimeModel PrimeProof HashModel HashSpec HashProof HtabModel HtabSpec HtabProof HtabFsProof CrcModel NlModel NlSpec FindProof.
From Coq Require Import Znumtheory.

Lemma same_refl : forall a, same_name a a = true.
Proof. intros. apply beq_ok. reflexivity. Qed.
Lemma same_sym : forall a b, same_name a b = true -> same_name b a = true.
Proof. unfold same_name. intros a b H. apply beq_ok in H. apply beq_ok. auto. Qed.
Lemma same_trans : forall a b c, same_name a b = true -> same_name b c = true -> same_name a c = true.
Proof. unfold same_name. intros a b c H K. apply beq_ok in H. apply beq_ok in K. apply beq_ok. congruence. Qed.

Lemma hash_ok : forall n, cstring n -> hash_name n = Ok (abi_hash n).
Proof. intros n H. unfold hash_name, elf_hash. apply dl_elf_hash_abi. exact H. Qed.
Lemma hash_lt : forall n, cstring n -> 0 <= abi_hash n < 2 ^ 28.
Proof.
  intros n Hs. unfold abi_hash.
  destruct (dl_hash_loop_abi n [] 0 0 Hs) as (H' & _ & _ & _ & B); try lia; reflexivity.
Qed.

(* the table of a file holds, for each name, its last symbol *)
Definition holds_last (syms : list (bytes * nsym)) (m : list (Z * hent)) : Prop :=
  forall n, cstring n -> n <> [] -> abi_hash n <> 0 ->
  match map_find hent same_name m (abi_hash n) (n, Nsym 0 0 0) with
  | Some d => last_of n syms (snd d)
  | None => ~ In n (map fst syms)
  end.

Notation finv := (finv hent same_name).

Lemma find_map : forall (T : Type) (f : T -> bool) g (l : list T), (forall x, f (g x) = f x) -> find f (map g l) = option_map g (find f l).
Proof. intros T f g l H. induction l as [|a l IH]; [reflexivity|]. simpl. rewrite H. destruct (f a); auto. Qed.

Lemma find_snoc : forall (T : Type) (f : T -> bool) l (x : T), find f (l ++ [x]) = match find f l with Some y => Some y | None => if f x then Some x else None end.
Proof. intros. induction l as [|a l IH]; simpl; [reflexivity|]. destruct (f a); auto. Qed.

Lemma store_last : forall syms m n y, holds_last syms m -> cstring n -> n <> [] -> abi_hash n <> 0 ->
  holds_last (syms ++ [(n, y)]) (fst (map_overwrite hent same_name m (abi_hash n) (n, y))).
Proof.
  intros syms m n y H Hc Hn Hh k Kc Kn Kh. specialize (H k Kc Kn Kh).
  assert (HH : forall e, hits hent same_name (abi_hash k) (k, Nsym 0 0 0) e = true <-> fst e = abi_hash k /\ fst (snd e) = k).
  { intros e. unfold hits, same_name. rewrite andb_true_iff, Z.eqb_eq, beq_ok. cbn [fst]. tauto. }
  assert (NN : forall e, hits hent same_name (abi_hash n) (n, y) e = true <-> fst e = abi_hash n /\ fst (snd e) = n).
  { intros e. unfold hits, same_name. rewrite andb_true_iff, Z.eqb_eq, beq_ok. cbn [fst]. tauto. }
  unfold map_overwrite. unfold map_find in *.
  destruct (list_eq_dec Z.eq_dec k n) as [E|E].
  - subst k.
    assert (Q : forall e, hits hent same_name (abi_hash n) (n, Nsym 0 0 0) e = hits hent same_name (abi_hash n) (n, y) e) by reflexivity.
    assert (P : last_of n (syms ++ [(n, y)]) y) by (exists syms, []; split; [reflexivity|auto]).
    change (find (hits hent same_name (abi_hash n) (n, y)) m) with (find (hits hent same_name (abi_hash n) (n, Nsym 0 0 0)) m).
    destruct (find (hits hent same_name (abi_hash n) (n, Nsym 0 0 0)) m) as [e|] eqn:F; cbn [option_map fst].
    + rewrite find_map.
      * rewrite F. cbn [option_map]. pose proof F as F2. apply find_some in F2. destruct F2 as [_ F2]. rewrite <- Q, F2. exact P.
      * intros x. rewrite <- Q. destruct (hits hent same_name (abi_hash n) (n, Nsym 0 0 0) x) eqn:B; [|exact B].
        apply HH. cbn [fst snd]. auto.
    + rewrite find_snoc. match goal with |- context [find ?f m] => replace (find f m) with (@None (Z * hent)) by (symmetry; exact F) end.
      match goal with |- context [if ?h then _ else _] => replace h with true by (symmetry; apply (proj2 (HH (abi_hash n, (n, y)))); cbn [fst snd]; auto) end. exact P.
  - assert (L : forall z, last_of k syms z -> last_of k (syms ++ [(n, y)]) z).
    { intros z (a & b & Ea & Eb). exists a, (b ++ [(n, y)]). split; [rewrite Ea, <- app_assoc; reflexivity|].
      rewrite map_app, in_app_iff. simpl. intros [X|[X|[]]]; auto. }
    assert (NI : ~ In k (map fst syms) -> ~ In k (map fst (syms ++ [(n, y)]))).
    { rewrite map_app, in_app_iff. simpl. intros X [X2|[X2|[]]]; auto. }
    destruct (find (hits hent same_name (abi_hash n) (n, y)) m) as [e|] eqn:F; cbn [option_map fst].
    + rewrite find_map.
      * destruct (find (hits hent same_name (abi_hash k) (k, Nsym 0 0 0)) m) as [d|] eqn:G; cbn [option_map]; [|auto].
        cbn [option_map] in H. destruct (hits hent same_name (abi_hash n) (n, y) d) eqn:B; [|auto].
        exfalso. apply find_some in G. destruct G as [_ G]. apply HH in G. apply NN in B. destruct G as [_ G]. destruct B as [_ B]. congruence.
      * intros x. destruct (hits hent same_name (abi_hash n) (n, y) x) eqn:B; [|reflexivity].
        destruct (hits hent same_name (abi_hash k) (k, Nsym 0 0 0) x) eqn:D.
        { exfalso. apply HH in D. apply NN in B. destruct D as [_ D]. destruct B as [_ B]. congruence. }
        apply not_true_is_false. intros D2. apply HH in D2. cbn [fst snd] in D2. destruct D2 as [_ D2]. congruence.
    + rewrite find_snoc. destruct (find (hits hent same_name (abi_hash k) (k, Nsym 0 0 0)) m) as [d|] eqn:G; [cbn [option_map] in *; auto|].
      match goal with |- context [if ?h then _ else _] => destruct h eqn:D2; [|cbn [option_map] in *; auto] end.
      exfalso. apply HH in D2. cbn [fst snd] in D2. destruct D2 as [_ D2]. congruence.
Qed.

Lemma overwrite_ok : forall n t m h d, finv n t m -> n < fs_nslots t -> 0 < h < two64 ->
  exists t', fs_overwrite hent same_name t h d = Ok (t', 0) /\ finv (n + 1) t' (fst (map_overwrite hent same_name m h d)) /\ fs_nslots t' = fs_nslots t.
Proof.
  intros n t m h d I Hn Hh.
  destruct (finv_lookup hent same_name same_refl same_sym same_trans n t m h d I Hn Hh) as (k & L & E & Hb).
  pose proof (finv_store hent same_name same_refl same_sym same_trans n t m h d k I Hh L Hb) as IS.
  unfold fs_overwrite. rewrite E. cbn [obind].
  destruct (flooked_dec hent same_name same_refl same_sym same_trans n t m h d k I Hh L) as [(e & Ez & He & F)|(Ez & F)];
    unfold slot_at; rewrite Ez; cbn [obind]; (eexists; split; [reflexivity|]; split; [|reflexivity]);
    unfold HtabProof.store_map in IS; unfold map_overwrite, map_find; rewrite F in IS |- *; cbn [option_map fst]; exact IS.
Qed.

Lemma find_ok : forall n t m h v, finv n t m -> n < fs_nslots t -> 0 < h < two64 ->
  fs_find hent same_name t h v = Ok (map_find hent same_name m h v).
Proof.
  intros n t m h v I Hn Hh.
  destruct (finv_lookup hent same_name same_refl same_sym same_trans n t m h v I Hn Hh) as (k & L & E & Hb).
  unfold fs_find. rewrite E. cbn [obind].
  destruct (flooked_dec hent same_name same_refl same_sym same_trans n t m h v k I Hh L) as [(e & Ez & He & F)|(Ez & F)];
    unfold slot_at; rewrite Ez; cbn [obind]; unfold map_find; rewrite F; cbn [option_map]; [|reflexivity].
  destruct e as [h' d']. cbn [fst] in He. replace (h' =? 0) with false by lia. reflexivity.
Qed.

Definition good_name (n : bytes) : Prop := cstring n /\ (n <> [] -> abi_hash n <> 0).

Lemma enter_ok : forall todo done t m c, finv c t m -> holds_last done m -> 0 <= c -> c + zlen todo < fs_nslots t ->
  Forall (fun p => good_name (fst p)) todo ->
  exists t' m' c', enter_syms t (map (fun p => Some (snd p, Some (fst p))) todo) = Ok (Some t') /\ finv c' t' m' /\ c' < fs_nslots t' /\ holds_last (done ++ todo) m'.
Proof.
  induction todo as [|[n y] todo IH]; intros done t m c I H Hc Hn G.
  - rewrite zlen_nil in Hn. exists t, m, c. rewrite app_nil_r. split; [reflexivity|]. split; [exact I|]. split; [lia|exact H].
  - inversion G as [|? ? G1 G2]; subst. cbn [fst] in G1. rewrite zlen_cons in Hn. pose proof (zlen_nonneg _ todo).
    cbn [map enter_syms fst snd]. replace (done ++ (n, y) :: todo) with ((done ++ [(n, y)]) ++ todo) by (rewrite <- app_assoc; reflexivity).
    destruct n as [|b n].
    + destruct (IH (done ++ [([], y)]) t m c I) as (t' & m' & c' & R); [|lia|lia|exact G2|exists t', m', c'; exact R].
      intros k Kc Kn Kh. specialize (H k Kc Kn Kh). destruct (map_find hent same_name m (abi_hash k) (k, Nsym 0 0 0)) as [d|].
      * destruct H as (a & b & Ea & Eb). exists a, (b ++ [([], y)]). split; [rewrite Ea, <- app_assoc; reflexivity|].
        rewrite map_app, in_app_iff. simpl. intros [X|[X|[]]]; auto.
      * rewrite map_app, in_app_iff. simpl. intros [X|[X|[]]]; auto.
    + destruct G1 as [Gc Gh]. assert (Nn : b :: n <> []) by discriminate. specialize (Gh Nn).
      rewrite hash_ok by exact Gc. cbn [obind]. pose proof (hash_lt _ Gc) as B.
      destruct (overwrite_ok c t m (abi_hash (b :: n)) (b :: n, y) I ltac:(lia) ltac:(lia)) as (t1 & E1 & I1 & S1).
      match goal with |- context [fs_overwrite ?a ?c t ?h ?d] => replace (fs_overwrite a c t h d) with (Ok (t1, 0)) by (symmetry; exact E1) end. cbn [obind fst].
      destruct (IH (done ++ [(b :: n, y)]) t1 _ (c + 1) I1) as (t' & m' & c' & R); [|lia|lia|exact G2|exists t', m', c'; exact R].
      apply store_last; auto.
Qed.

Lemma ask_step : forall t e r n, e_name e = Some n -> n <> [] ->
  ask t (e :: r) = (h <- hash_name n ;; f <- fs_find hent same_name t h (n, Nsym 0 0 0) ;; r' <- ask t r ;;
                    Ok ((match f with Some d => fill e (snd d) | None => clear e end) :: r')).
Proof. intros t e r n E N. cbn [ask]. rewrite E. destruct n; [congruence|reflexivity]. Qed.

Lemma ask_ok : forall reqs syms t m c en rest, finv c t m -> c < fs_nslots t -> holds_last syms m ->
  Forall (fun e => exists n, e_name e = Some n /\ n <> [] /\ good_name n) reqs -> ends en ->
  exists out, ask t (reqs ++ en :: rest) = Ok (out ++ en :: rest) /\ Forall2 (entry_for syms) reqs out.
Proof.
  induction reqs as [|e reqs IH]; intros syms t m c en rest I Hc H G En.
  - exists []. split; [|constructor]. cbn [app ask]. destruct En as [-> | ->]; reflexivity.
  - inversion G as [|? ? (n & En1 & Nn & Gc & Gh) G2]; subst. destruct (IH syms t m c en rest I Hc H G2 En) as (out & E & F).
    change ((e :: reqs) ++ en :: rest) with (e :: (reqs ++ en :: rest)). rewrite (ask_step t e _ n En1 Nn). specialize (Gh Nn). pose proof (hash_lt _ Gc) as B.
    rewrite hash_ok by exact Gc. cbn [obind]. rewrite (find_ok c t m) by (auto; lia). cbn [obind]. rewrite E. cbn [obind].
    eexists (_ :: out). split; [reflexivity|]. constructor; [|exact F].
    specialize (H _ Gc Nn Gh). destruct (map_find hent same_name m (abi_hash n) (n, Nsym 0 0 0)) as [d|].
    + exists n. unfold fill. cbn [e_name e_value e_scnum e_type e_sclass e_numaux].
      split; [exact En1|]. split; [exact En1|]. split; [reflexivity|]. split; [reflexivity|]. left. exists (snd d).
      split; [exact H|]. split; [reflexivity|]. split; [reflexivity|].
      change 15 with (Z.ones 4). rewrite Z.land_ones by lia. reflexivity.
    + exists n. unfold clear. cbn [e_name e_value e_scnum e_type e_sclass e_numaux].
      split; [exact En1|]. split; [exact En1|]. split; [reflexivity|]. split; [reflexivity|]. right. auto.
Qed.

Lemma zero_ok : forall reqs en rest, Forall request reqs -> ends en -> zero_all (reqs ++ en :: rest) = Ok (map nothing reqs ++ en :: rest).
Proof.
  induction reqs as [|e reqs IH]; intros en rest G En.
  - cbn [app zero_all map]. destruct En as [-> | ->]; reflexivity.
  - inversion G as [|? ? (n & E & Nn & _) G2]; subst. cbn [app zero_all map]. rewrite E. destruct n; [congruence|].
    rewrite IH by auto. reflexivity.
Qed.

Lemma table_ok : forall scns acc s, Forall (fun x => s_hdr x = true) scns ->
  (find_table scns acc = Some (Some s) <->
   (exists a b, scns = a ++ s :: b /\ s_type s = 2 /\ Forall (fun x => s_type x <> 2) a) \/
   (Forall (fun x => s_type x <> 2) scns /\
    ((exists a b, scns = a ++ s :: b /\ s_type s = 11 /\ Forall (fun x => s_type x <> 11) b) \/
     (acc = Some s /\ Forall (fun x => s_type x <> 11) scns)))).
Proof.
  induction scns as [|x scns IH]; intros acc s H.
  - cbn [find_table]. split.
    + intros E. injection E as ->. right. split; [constructor|]. right. split; [reflexivity|constructor].
    + intros [(a & b & E & _)|[_ [(a & b & E & _)|(-> & _)]]]; [destruct a; discriminate E|destruct a; discriminate E|reflexivity].
  - inversion H as [|? ? H1 H2]; subst. cbn [find_table]. rewrite H1. cbn [negb].
    destruct (s_type x =? 2) eqn:T.
    + apply Z.eqb_eq in T. split.
      * intros E. injection E as ->. left. exists [], scns. repeat split; auto.
      * intros [(a & b & E & Ts & Fa)|[F _]].
        { destruct a as [|z a]; [injection E as -> _; reflexivity|]. injection E as -> _. inversion Fa; subst. congruence. }
        { inversion F; subst. congruence. }
    + apply Z.eqb_neq in T. rewrite (IH _ s H2). clear IH. split.
      * intros [(a & b & E & Ts & Fa)|(F & D)].
        { left. exists (x :: a), b. rewrite E. repeat split; auto. }
        right. split; [constructor; auto|]. destruct D as [(a & b & E & Ts & Fb)|(Ea & Fd)].
        { left. exists (x :: a), b. rewrite E. repeat split; auto. }
        destruct (s_type x =? 11) eqn:D11.
        { injection Ea as ->. left. exists [], scns. apply Z.eqb_eq in D11. repeat split; auto. }
        { right. split; [exact Ea|]. constructor; [apply Z.eqb_neq; exact D11|exact Fd]. }
      * intros [(a & b & E & Ts & Fa)|(F & D)].
        { destruct a as [|z a]; [injection E as -> _; congruence|]. injection E as <- ->. inversion Fa; subst. left. exists a, b. auto. }
        inversion F as [|? ? F1 F2]; subst. right. split; [exact F2|].
        destruct D as [(a & b & E & Ts & Fb)|(Ea & Fd)].
        { destruct a as [|z a].
          - injection E as -> ->. rewrite (proj2 (Z.eqb_eq _ _) Ts). right. auto.
          - injection E as <- ->. left. exists a, b. auto. }
        { inversion Fd as [|? ? D1 D2]; subst. right. split; [|exact D2]. rewrite (proj2 (Z.eqb_neq _ _) D1). reflexivity. }
Qed.
