From Coq Require Import Permutation Sorted.
From Verif Require Import Base RelocModel DereModel DereSpec.
From Verif Require SegProof.

Definition trip (r : secref) : Z * Z * Z := (q_scn r, q_start r, q_end r).
Lemma attach_trip : forall t rel l, map trip (attach t rel l) = map trip l.
Proof. induction l as [|r l IH]; [reflexivity|]. cbn [attach]. destruct (q_scn r =? t) eqn:E; cbn [map]; [reflexivity|]. rewrite IH. reflexivity. Qed.
Lemma scn_trip : forall l, map q_scn l = map (fun x => fst (fst x)) (map trip l).
Proof. intros. rewrite map_map. reflexivity. Qed.
Lemma attach_in : forall t rel l r', NoDup (map q_scn l) -> In r' (attach t rel l) -> exists r, In r l /\ q_scn r' = q_scn r /\ q_relocs r' = if q_scn r =? t then Some rel else q_relocs r.
Proof.
  induction l as [|r l IH]; intros r' N I; [contradiction|]. cbn [map] in N. apply NoDup_cons_iff in N. destruct N as (N1 & N2). cbn [attach] in I. destruct (q_scn r =? t) eqn:E.
  - destruct I as [<-|I]; [exists r; split; [left; reflexivity|]; rewrite E; split; reflexivity|]. exists r'. split; [right; exact I|]. split; [reflexivity|].
    destruct (q_scn r' =? t) eqn:E'; [|reflexivity]. exfalso. apply N1. replace (q_scn r) with (q_scn r') by lia. apply in_map. exact I.
  - destruct I as [<-|I]; [exists r; split; [left; reflexivity|]; rewrite E; split; reflexivity|]. destruct (IH r' N2 I) as (x & X & Y). exists x. split; [right; exact X|exact Y].
Qed.

Section table.
Variables (is_rel : bool) (bias : Z) (cb : Z -> option Z).
(* the sections in the order of the file *)
Fixpoint places (n : Z) (hs : list hdr) : list (Z * Z * Z) :=
  match hs with
  | [] => []
  | h :: hs => match load_addr is_rel cb n h with Some a => [(n, (a + bias) mod two64, (a + bias + h_size h) mod two64)] | None => [] end ++ places (n + 1) hs
  end.
Definition follows (n : Z) (hs : list hdr) (secs : list sec) : Prop := forall j, n <= j -> znth secs j = option_map sec_of (znth hs (j - n)).
Lemma follows_tail : forall n h hs secs, follows n (h :: hs) secs -> follows (n + 1) hs secs.
Proof. intros n h hs secs F j J. rewrite F by lia. replace (j - n) with (j - (n + 1) + 1) by lia. rewrite SegProof.znth_cons. destruct (j - (n + 1) + 1 =? 0) eqn:E; [lia|]. f_equal. f_equal. lia. Qed.
Lemma end_mod : forall a b c, (((a + b) mod two64) + c) mod two64 = (a + b + c) mod two64.
Proof. intros. rewrite Zplus_mod_idemp_l. reflexivity. Qed.
(* one section *)
Definition look (n : Z) (h : hdr) (secs : list sec) : list sec * bool :=
  if h_alloc h && (match znth secs n with Some s => s_addr s | None => 0 end =? 0) && is_rel then
    let '(secs, _, r) := relocate_value bias cb secs n 0 in (secs, match r with inl _ => true | inr _ => false end)
  else (secs, false).
Lemma look_ok : forall n h hs secs, 1 <= n -> follows n (h :: hs) secs ->
  let '(secs', failed) := look n h secs in
  follows (n + 1) hs secs' /\
  (failed = true -> load_addr is_rel cb n h = None /\ h_alloc h = true) /\
  (failed = false -> if h_alloc h then load_addr is_rel cb n h = Some (match znth secs' n with Some s => s_addr s | None => 0 end) else load_addr is_rel cb n h = None).
Proof.
  intros n h hs secs N F. pose proof (follows_tail _ _ _ _ F) as FT. unfold look. pose proof (F n ltac:(lia)) as FN. replace (n - n) with 0 in FN by lia. cbn in FN. rewrite FN. unfold load_addr.
  change (s_addr (sec_of h)) with (h_addr h). destruct (h_alloc h) eqn:AL; cbn [andb].
  2:{ split; [exact FT|]. split; [discriminate|reflexivity]. }
  destruct ((h_addr h =? 0) && is_rel) eqn:Z0.
  2:{ split; [exact FT|]. split; [discriminate|]. intros _. rewrite FN. reflexivity. }
  apply andb_true_iff in Z0. destruct Z0 as (Z0 & _). unfold relocate_value. replace (n =? 0) with false by lia. rewrite FN. change (s_addr (sec_of h)) with (h_addr h). change (s_alloc (sec_of h)) with (h_alloc h). rewrite Z0, AL. cbn [andb].
  pose proof (znth_range _ _ _ _ FN) as R.
  destruct (cb n) as [a|]; [|split; [exact FT|split; [auto|discriminate]]]. cbn [option_map]. set (a' := if a =? two64 - 1 then 0 else a). split; [|split; [discriminate|]].
  - destruct (negb (a' =? 0)); [|exact FT]. intros j J. rewrite znth_zset_neq by lia. apply FT. exact J.
  - intros _. destruct (a' =? 0) eqn:E0; cbn [negb].
    + rewrite FN. cbn [sec_of s_addr]. f_equal. lia.
    + rewrite znth_zset_eq by exact R. reflexivity.
Qed.
Lemma collect_eq : forall n h hs secs refs check, collect is_rel bias cb n (h :: hs) secs refs check =
  let '(secs, failed) := look n h secs in
  if failed : bool then collect is_rel bias cb (n + 1) hs secs refs check
  else
    let addr := match znth secs n with Some s => s_addr s | None => 0 end in
    let refs := if h_alloc h then Ref n None (u64 (addr + bias)) (u64 (u64 (addr + bias) + h_size h)) :: refs else refs in
    if is_rel && negb (h_size h =? 0) && h_rel h then
      if h_info h <? n then collect is_rel bias cb (n + 1) hs secs (attach (h_info h) n refs) check
      else collect is_rel bias cb (n + 1) hs secs refs true
    else collect is_rel bias cb (n + 1) hs secs refs check.
Proof. reflexivity. Qed.
Lemma collect_places : forall hs n secs refs check, 1 <= n -> follows n hs secs ->
  let '(_, refs', _) := collect is_rel bias cb n hs secs refs check in map trip refs' = rev (places n hs) ++ map trip refs.
Proof.
  induction hs as [|h hs IH]; intros n secs refs check N F; [reflexivity|]. rewrite collect_eq. pose proof (look_ok n h hs secs N F) as L. destruct (look n h secs) as (secs', failed). destruct L as (F' & L1 & L0).
  cbn [places]. destruct failed.
  - destruct (L1 eq_refl) as (-> & _). cbn [app]. apply IH; [lia|exact F'].
  - specialize (L0 eq_refl). cbn zeta. set (addr := match znth secs' n with Some s => s_addr s | None => 0 end) in *.
    set (refs1 := if h_alloc h then _ else refs).
    assert (G : rev (places (n + 1) hs) ++ map trip refs1 = rev (match load_addr is_rel cb n h with Some a => [(n, (a + bias) mod two64, (a + bias + h_size h) mod two64)] | None => [] end ++ places (n + 1) hs) ++ map trip refs).
    { unfold refs1. destruct (h_alloc h); rewrite L0; [|reflexivity]. rewrite rev_app_distr. cbn [rev app map trip q_scn q_start q_end]. rewrite <- app_assoc. unfold u64. rewrite end_mod. reflexivity. }
    rewrite <- G. destruct (is_rel && negb (h_size h =? 0) && h_rel h); [destruct (h_info h <? n)|]; [rewrite <- (attach_trip (h_info h) n refs1)| |]; apply IH; try lia; exact F'.
Qed.
Lemma places_in : forall hs n i s e, In (i, s, e) (places n hs) <-> n <= i /\ exists h a, znth hs (i - n) = Some h /\ load_addr is_rel cb i h = Some a /\ s = (a + bias) mod two64 /\ e = (a + bias + h_size h) mod two64.
Proof.
  induction hs as [|h hs IH]; intros n i s e; cbn [places].
  - split; [contradiction|]. intros (_ & h & a & E & _). apply znth_range in E. unfold zlen in E. cbn in E. lia.
  - rewrite in_app_iff, IH. split.
    + intros [I|(J & h' & a & E & R)].
      * destruct (load_addr is_rel cb n h) as [a|] eqn:LA; [|contradiction]. destruct I as [I|[]]. injection I as <- <- <-. split; [lia|]. exists h, a. replace (n - n) with 0 by lia. auto.
      * split; [lia|]. exists h', a. split; [|exact R]. rewrite SegProof.znth_cons. replace (i - n =? 0) with false by lia. rewrite <- E. f_equal. lia.
    + intros (J & h' & a & E & LA & S & X). rewrite SegProof.znth_cons in E. destruct (i - n =? 0) eqn:I0.
      * left. injection E as ->. replace i with n in * by lia. rewrite LA. left. subst. reflexivity.
      * right. split; [lia|]. exists h', a. split; [|auto]. rewrite <- E. f_equal. lia.
Qed.
Lemma places_nodup : forall hs n, NoDup (map (fun x => fst (fst x)) (places n hs)) /\ forall x, In x (places n hs) -> n <= fst (fst x).
Proof.
  induction hs as [|h hs IH]; intros n; cbn [places]; [split; [constructor|contradiction]|]. destruct (IH (n + 1)) as (A & B). destruct (load_addr is_rel cb n h); cbn [app map].
  - split; [constructor; [|exact A]|].
    + intros I. apply in_map_iff in I. destruct I as (x & E & I). specialize (B x I). cbn in E. lia.
    + intros x [<-|I]; [cbn; lia|]. specialize (B x I). lia.
  - split; [exact A|]. intros x I. specialize (B x I). lia.
Qed.

(* relocation sections *)
Definition lastrel (hs : list hdr) (ok : Z -> Prop) (i : Z) (o : option Z) : Prop :=
  match o with Some j => relocates hs j i /\ ok j /\ forall k, j < k -> ok k -> ~ relocates hs k i | None => forall k, ok k -> ~ relocates hs k i end.
Definition suffix (n : Z) (hs hs0 : list hdr) : Prop := forall j, n <= j -> znth hs0 j = znth hs (j - n).
Lemma suffix_tail : forall n h hs hs0, suffix n (h :: hs) hs0 -> suffix (n + 1) hs hs0 /\ znth hs0 n = Some h.
Proof.
  intros n h hs hs0 F. split.
  - intros j J. rewrite F by lia. rewrite SegProof.znth_cons. replace (j - n =? 0) with false by lia. f_equal. lia.
  - rewrite F by lia. replace (n - n) with 0 by lia. reflexivity.
Qed.
Definition early (n i k : Z) : Prop := k < n /\ i < k.
Definition pass1 (hs0 : list hdr) (n : Z) (refs : list secref) (check : bool) : Prop :=
  NoDup (map q_scn refs) /\ (forall r, In r refs -> 1 <= q_scn r < n /\ lastrel hs0 (early n (q_scn r)) (q_scn r) (q_relocs r)) /\
  (check = false -> forall k i, k < n -> relocates hs0 k i -> i < k).
Lemma lastrel_next : forall hs0 n i o, lastrel hs0 (early n i) i o -> ~ (relocates hs0 n i /\ i < n) -> lastrel hs0 (early (n + 1) i) i o.
Proof.
  intros hs0 n i [j|] L N; cbn [lastrel] in *.
  - destruct L as (A & B & C). split; [exact A|]. split; [unfold early in *; lia|]. intros k K E R. destruct (Z.eq_dec k n) as [->|NK]; [apply N; unfold early in E; split; [exact R|lia]|]. apply (C k K); [unfold early in *; lia|exact R].
  - intros k E R. destruct (Z.eq_dec k n) as [->|NK]; [apply N; unfold early in E; split; [exact R|lia]|]. apply (L k); [unfold early in *; lia|exact R].
Qed.
Lemma collect_relocs : is_rel = true -> forall hs0, (forall h, In h hs0 -> h_rel h = true -> h_alloc h = false) ->
  forall hs n secs refs check, 1 <= n -> follows n hs secs -> suffix n hs hs0 -> pass1 hs0 n refs check ->
  let '(_, refs', check') := collect is_rel bias cb n hs secs refs check in pass1 hs0 (n + zlen hs) refs' check'.
Proof.
  intros ISREL hs0 NA. induction hs as [|h hs IH]; intros n secs refs check N F SF P.
  - cbn [collect]. replace (n + zlen []) with n by (unfold zlen; cbn; lia). exact P.
  - rewrite collect_eq. pose proof (look_ok n h hs secs N F) as L. destruct (look n h secs) as (secs', failed). destruct L as (F' & L1 & L0). destruct (suffix_tail _ _ _ _ SF) as (SF' & H0).
    rewrite zlen_cons. replace (n + (1 + zlen hs)) with (n + 1 + zlen hs) by lia. destruct P as (P1 & P2 & P3).
    assert (NR : forall k, relocates hs0 n k -> h_rel h = true /\ h_size h <> 0 /\ h_info h = k) by (intros k (_ & h' & E & R); rewrite H0 in E; injection E as <-; exact R).
    assert (NAh : h_rel h = true -> h_alloc h = false) by (apply NA; exact (proj1 (SegProof.znth_in _ _ _ _ H0))).
    assert (KEEP : (forall k, ~ relocates hs0 n k) -> pass1 hs0 (n + 1) refs check).
    { intros NO. split; [exact P1|]. split.
      - intros r I. destruct (P2 r I) as (B & LR). split; [lia|]. apply lastrel_next; [exact LR|]. intros (X & _). exact (NO _ X).
      - intros C k i K R. destruct (Z.eq_dec k n) as [->|NK]; [destruct (NO _ R)|]. apply (P3 C k i ltac:(lia) R). }
    destruct failed.
    + destruct (L1 eq_refl) as (_ & AL). apply IH; [lia|exact F'|exact SF'|]. apply KEEP. intros k R. destruct (NR k R) as (R1 & _). rewrite (NAh R1) in AL. discriminate.
    + clear L0 L1. cbn zeta. replace (is_rel && negb (h_size h =? 0) && h_rel h) with (negb (h_size h =? 0) && h_rel h) by (rewrite ISREL; reflexivity). destruct (negb (h_size h =? 0) && h_rel h) eqn:RS.
      * apply andb_true_iff in RS. destruct RS as (SZ & RL). rewrite (NAh RL). assert (RN : relocates hs0 n (h_info h)) by (split; [exact N|]; exists h; split; [exact H0|]; split; [exact RL|]; split; [lia|reflexivity]).
        destruct (h_info h <? n) eqn:LT.
        -- apply IH; [lia|exact F'|exact SF'|]. split; [rewrite scn_trip, attach_trip, <- scn_trip; exact P1|]. split.
           ++ intros r I. destruct (attach_in _ _ _ _ P1 I) as (r0 & I0 & E1 & E2). destruct (P2 r0 I0) as (B & LR). rewrite E1, E2. split; [lia|]. destruct (q_scn r0 =? h_info h) eqn:EQ.
              ** cbn [lastrel]. replace (q_scn r0) with (h_info h) by lia. split; [exact RN|]. split; [unfold early; lia|]. intros k K E. unfold early in E. lia.
              ** apply lastrel_next; [exact LR|]. intros (X & _). destruct (NR _ X) as (_ & _ & X3). lia.
           ++ intros C k i K R. destruct (Z.eq_dec k n) as [->|NK]; [destruct (NR _ R) as (_ & _ & X3); lia|]. apply (P3 C k i ltac:(lia) R).
        -- apply IH; [lia|exact F'|exact SF'|]. split; [exact P1|]. split; [|discriminate].
           intros r I. destruct (P2 r I) as (B & LR). split; [lia|]. apply lastrel_next; [exact LR|]. intros (X & _). destruct (NR _ X) as (_ & _ & X3). lia.
      * assert (NO : forall k, ~ relocates hs0 n k).
        { intros k R. destruct (NR k R) as (R1 & R2 & _). rewrite R1 in RS. rewrite andb_true_r in RS. lia. }
        apply IH; [lia|exact F'|exact SF'|]. destruct (KEEP NO) as (K1 & K2 & K3). destruct (h_alloc h); [|split; [exact K1|split; [exact K2|exact K3]]]. split; [|split; [|exact K3]].
        -- cbn [map q_scn]. constructor; [|exact K1]. intros I. apply in_map_iff in I. destruct I as (r & E & I). destruct (P2 r I). lia.
        -- intros r [<-|I]; [|exact (K2 r I)]. cbn [q_scn q_relocs]. split; [lia|]. intros k E. unfold early in E. lia.
Qed.
Lemma second_trip : forall hs n m refs, map trip (second n m hs refs) = map trip refs.
Proof. induction hs as [|h hs IH]; intros n m refs; [reflexivity|]. cbn [second]. rewrite IH. destruct (_ && _); [apply attach_trip|reflexivity]. Qed.
Lemma second_ok : forall hs0 hs n m refs, 1 <= n -> suffix n hs hs0 -> NoDup (map q_scn refs) -> (forall r, In r refs -> 1 <= q_scn r < m) ->
  forall r, In r (second n m hs refs) -> exists r0, In r0 refs /\ q_scn r = q_scn r0 /\
    ((exists j, q_relocs r = Some j /\ n <= j /\ lastrel hs0 (fun k => n <= k) (q_scn r) (Some j)) \/
     (q_relocs r = q_relocs r0 /\ lastrel hs0 (fun k => n <= k) (q_scn r) None)).
Proof.
  intros hs0. induction hs as [|h hs IH]; intros n m refs N SF ND RG r I.
  - cbn [second] in I. exists r. split; [exact I|]. split; [reflexivity|]. right. split; [reflexivity|]. intros k K (_ & h & E & _). rewrite SF in E by exact K. apply znth_range in E. unfold zlen in E. cbn in E. lia.
  - cbn [second] in I. destruct (suffix_tail _ _ _ _ SF) as (SF' & H0).
    assert (NR : forall k, relocates hs0 n k -> h_rel h = true /\ h_size h <> 0 /\ h_info h = k) by (intros k (_ & h' & E & R); rewrite H0 in E; injection E as <-; exact R).
    set (c := negb (h_size h =? 0) && h_rel h && (0 <=? h_info h) && (h_info h <? m)) in *.
    set (refs1 := if c then attach (h_info h) n refs else refs) in *.
    assert (T1 : map trip refs1 = map trip refs) by (unfold refs1; destruct c; [apply attach_trip|reflexivity]).
    assert (ND1 : NoDup (map q_scn refs1)) by (rewrite scn_trip, T1, <- scn_trip; exact ND).
    assert (RG1 : forall r, In r refs1 -> 1 <= q_scn r < m).
    { intros x X. assert (IT : In (trip x) (map trip refs)) by (rewrite <- T1; apply in_map; exact X). apply in_map_iff in IT. destruct IT as (y & E & Y). injection E as E _ _. rewrite <- E. apply RG. exact Y. }
    destruct (IH (n + 1) m refs1 ltac:(lia) SF' ND1 RG1 r I) as (r1 & I1 & E1 & D).
    assert (X : exists r0, In r0 refs /\ q_scn r1 = q_scn r0 /\ q_relocs r1 = if c && (q_scn r0 =? h_info h) then Some n else q_relocs r0).
    { unfold refs1 in I1. destruct c; [exact (attach_in _ _ _ _ ND I1)|]. exists r1. auto. }
    destruct X as (r0 & I0 & E0 & V). exists r0. split; [exact I0|]. split; [congruence|]. destruct D as [(j & J1 & J2 & J3)|(J1 & J2)].
    + left. exists j. split; [exact J1|]. split; [lia|]. cbn [lastrel] in *. destruct J3 as (A & B & C). split; [exact A|]. split; [lia|]. intros k K _. apply C; lia.
    + destruct (c && (q_scn r0 =? h_info h)) eqn:CC.
      * left. exists n. split; [congruence|]. split; [lia|]. apply andb_true_iff in CC. destruct CC as (CC & EQ). unfold c in CC. cbn [lastrel]. split.
        -- split; [exact N|]. exists h. split; [exact H0|]. rewrite !andb_true_iff in CC. destruct CC as (((C1 & C2) & _) & _). split; [exact C2|]. split; [lia|]. rewrite E1, E0. lia.
        -- split; [lia|]. intros k K _. apply J2. lia.
      * right. split; [congruence|]. intros k K R. destruct (Z.eq_dec k n) as [->|NK]; [|apply (J2 k); [lia|exact R]].
        destruct (NR _ R) as (R1 & R2 & R3). rewrite E1, E0 in R3. specialize (RG r0 I0). unfold c in CC. rewrite R1 in CC. replace (h_size h =? 0) with false in CC by lia. replace (0 <=? h_info h) with true in CC by lia. replace (h_info h <? m) with true in CC by lia. cbn [negb andb] in CC. lia.
Qed.

(* the order *)
Lemma lt_before : forall a b, ref_lt a b = true <-> before a b.
Proof.
  intros a b. unfold ref_lt, before. destruct (q_start a <? q_start b) eqn:E1; [split; [lia|reflexivity]|]. destruct (q_start b <? q_start a) eqn:E2; [split; [discriminate|lia]|].
  destruct (q_end a <? q_end b) eqn:E3; [split; [lia|reflexivity]|]. destruct (q_end b <? q_end a) eqn:E4; [split; [discriminate|lia]|]. destruct (q_scn a <? q_scn b) eqn:E5; split; try lia; try discriminate; reflexivity.
Qed.
Lemma insert_perm : forall x l, Permutation (x :: l) (insert x l).
Proof. induction l as [|y l IH]; cbn [insert]; [reflexivity|]. destruct (ref_lt x y); [reflexivity|]. rewrite perm_swap. constructor. exact IH. Qed.
Lemma sort_perm : forall l, Permutation l (sort l).
Proof. induction l as [|x l IH]; [constructor|]. cbn [sort]. rewrite <- insert_perm. constructor. exact IH. Qed.
Lemma insert_sorted : forall x l, StronglySorted before l -> ~ In (q_scn x) (map q_scn l) -> StronglySorted before (insert x l).
Proof.
  induction l as [|y l IH]; intros ST NI; cbn [insert]; [repeat constructor|]. apply StronglySorted_inv in ST. destruct ST as (S1 & S2). destruct (ref_lt x y) eqn:E.
  - apply lt_before in E. constructor; [constructor; assumption|]. constructor; [exact E|]. eapply Forall_impl; [|exact S2]. intros z Z1. unfold before in *. lia.
  - assert (B : before y x). { assert (q_scn x <> q_scn y) by (intro H; apply NI; left; symmetry; exact H). assert (~ before x y) by (rewrite <- lt_before, E; discriminate). unfold before in *. lia. }
    constructor; [apply IH; [exact S1|intro H; apply NI; right; exact H]|]. apply (Permutation_Forall (insert_perm x l)). constructor; assumption.
Qed.
Lemma sort_sorted : forall l, NoDup (map q_scn l) -> StronglySorted before (sort l).
Proof.
  induction l as [|x l IH]; intros N; [constructor|]. cbn [map] in N. apply NoDup_cons_iff in N. destruct N as (N1 & N2). cbn [sort]. apply insert_sorted; [exact (IH N2)|].
  intros I. apply N1. apply (Permutation_in _ (Permutation_sym (Permutation_map q_scn (sort_perm l)))). exact I.
Qed.
Lemma second_sorted : forall l l', map trip l' = map trip l -> StronglySorted before l -> StronglySorted before l'.
Proof.
  induction l as [|x l IH]; intros [|y l'] E S1; try discriminate; [constructor|]. cbn [map] in E. injection E as E1 E2 E3 E4. apply StronglySorted_inv in S1. destruct S1 as (S1 & S2). constructor; [exact (IH _ E4 S1)|].
  clear IH S1. revert l' E4. induction S2 as [|z l Z1 S2 IH2]; intros [|w l'] E4; try discriminate; constructor.
  - cbn [map] in E4. injection E4 as F1 F2 F3 _. unfold before in *. rewrite E1, E2, E3, F1, F2, F3. exact Z1.
  - cbn [map] in E4. injection E4 as _ _ _ E4. apply IH2. exact E4.
Qed.
Lemma follows_all : forall h hs, follows 1 hs (map sec_of (h :: hs)).
Proof.
  intros h hs j J. cbn [map]. rewrite SegProof.znth_cons. replace (j =? 0) with false by lia.
  destruct (znth hs (j - 1)) as [x|] eqn:E.
  - unfold znth in *. assert (L : zlen (map sec_of hs) = zlen hs) by (unfold zlen; rewrite map_length; reflexivity). rewrite L. destruct ((0 <=? j - 1) && (j - 1 <? zlen hs)); [|discriminate]. rewrite nth_error_map, E. reflexivity.
  - apply znth_out. apply znth_None in E. assert (L : zlen (map sec_of hs) = zlen hs) by (unfold zlen; rewrite map_length; reflexivity). rewrite L. exact E.
Qed.
Lemma table_ok : forall hs, let l := table is_rel bias cb hs in
  StronglySorted before l /\ NoDup (map q_scn l) /\
  (forall i s e, placed is_rel bias cb hs i s e <-> exists r, In r l /\ trip r = (i, s, e)).
Proof.
  intros hs. cbn zeta. assert (X : exists refs0, NoDup (map q_scn refs0) /\ map trip (table is_rel bias cb hs) = map trip (sort refs0) /\ (forall x, In x (map trip refs0) <-> In x (places 1 (tl hs)))).
  { unfold table. assert (F : follows 1 (tl hs) (map sec_of hs)). { destruct hs as [|h hs]; [intros j J; cbn [tl map]; rewrite !znth_out by (unfold zlen; cbn; lia); reflexivity|apply follows_all]. }
    pose proof (collect_places (tl hs) 1 (map sec_of hs) [] false ltac:(lia) F) as C. destruct (collect is_rel bias cb 1 (tl hs) (map sec_of hs) [] false) as ((secs, refs), check). cbn [map] in C. rewrite app_nil_r in C.
    assert (R : map trip (rev refs) = places 1 (tl hs)) by (rewrite map_rev, C, rev_involutive; reflexivity).
    exists (rev refs). split; [rewrite scn_trip, R; apply places_nodup|]. split; [destruct check; [apply second_trip|reflexivity]|]. intros x. rewrite R. reflexivity. }
  destruct X as (refs0 & ND & T & IN). split; [apply (second_sorted (sort refs0)); [exact T|apply sort_sorted; exact ND]|].
  pose proof (Permutation_map trip (sort_perm refs0)) as PM. split.
  - rewrite scn_trip, T, <- scn_trip. apply (Permutation_NoDup (Permutation_map q_scn (sort_perm refs0))). exact ND.
  - intros i s e.
    assert (Q : placed is_rel bias cb hs i s e <-> In (i, s, e) (places 1 (tl hs))).
    { rewrite places_in. unfold placed. split; intros (P1 & h & a & E & R); (split; [exact P1|]); exists h, a; (split; [|exact R]); destruct hs as [|h0 hs0].
      - apply znth_range in E. unfold zlen in E. cbn in E. lia.
      - rewrite SegProof.znth_cons in E. replace (i =? 0) with false in E by lia. exact E.
      - apply znth_range in E. unfold zlen in E. cbn in E. lia.
      - rewrite SegProof.znth_cons. replace (i =? 0) with false by lia. exact E. }
    rewrite Q, <- IN. split.
    + intros I. apply (Permutation_in _ PM) in I. rewrite <- T in I. apply in_map_iff in I. destruct I as (r & E & I). exists r. auto.
    + intros (r & I & E). apply (Permutation_in _ (Permutation_sym PM)). rewrite <- T. rewrite <- E. apply in_map. exact I.
Qed.
Lemma table_relocs : is_rel = true -> forall hs, (forall h, In h hs -> h_rel h = true -> h_alloc h = false) ->
  forall r, In r (table is_rel bias cb hs) -> lastrel hs (fun _ => True) (q_scn r) (q_relocs r).
Proof.
  intros ISREL hs NA r I. unfold table in I.
  assert (F : follows 1 (tl hs) (map sec_of hs)). { destruct hs as [|h hs]; [intros j J; cbn [tl map]; rewrite !znth_out by (unfold zlen; cbn; lia); reflexivity|apply follows_all]. }
  assert (SF : suffix 1 (tl hs) hs). { intros j J. destruct hs as [|h hs]; [cbn [tl]; rewrite !znth_out by (unfold zlen; cbn; lia); reflexivity|]. rewrite SegProof.znth_cons. replace (j =? 0) with false by lia. reflexivity. }
  assert (P0 : pass1 hs 1 [] false). { split; [constructor|]. split; [contradiction|]. intros _ k i K (K1 & _). lia. }
  pose proof (collect_relocs ISREL hs NA (tl hs) 1 (map sec_of hs) [] false ltac:(lia) F SF P0) as C. destruct (collect is_rel bias cb 1 (tl hs) (map sec_of hs) [] false) as ((secs, refs), check). destruct C as (C1 & C2 & C3).
  set (n := 1 + zlen (tl hs)) in *. assert (NB : forall k i, relocates hs k i -> k < n). { intros k i (K1 & h & E & _). apply znth_range in E. unfold n. destruct hs; cbn [tl]; rewrite ?zlen_cons in *; unfold zlen in *; cbn in *; lia. }
  assert (PM : forall x, In x (sort (rev refs)) -> In x refs) by (intros x X; apply in_rev; apply (Permutation_in _ (Permutation_sym (sort_perm (rev refs)))); exact X).
  destruct check.
  - assert (ND : NoDup (map q_scn (sort (rev refs)))). { apply (Permutation_NoDup (Permutation_map q_scn (sort_perm (rev refs)))). rewrite map_rev. apply NoDup_rev. exact C1. }
    assert (RG : forall x, In x (sort (rev refs)) -> 1 <= q_scn x < zlen hs). { intros x X. destruct (C2 x (PM x X)) as (B & _). unfold n in B. destruct hs; cbn [tl] in B; rewrite ?zlen_cons in *; unfold zlen in *; cbn in *; lia. }
    destruct (second_ok hs (tl hs) 1 (zlen hs) _ ltac:(lia) SF ND RG r I) as (r0 & I0 & E0 & [(j & J1 & J2 & J3)|(J1 & J2)]).
    + rewrite J1. cbn [lastrel] in *. destruct J3 as (A & B & C). split; [exact A|]. split; [exact Logic.I|]. intros k K _. apply C; lia.
    + rewrite J1. destruct (C2 r0 (PM r0 I0)) as (_ & LR). rewrite <- E0 in LR. destruct (q_relocs r0) as [j|]; cbn [lastrel] in *.
      * destruct LR as (A & _). exfalso. apply (J2 j); [destruct A; assumption|exact A].
      * intros k _ R. apply (J2 k); [destruct R; assumption|exact R].
  - destruct (C2 r (PM r I)) as (_ & LR). specialize (C3 eq_refl). destruct (q_relocs r) as [j|]; cbn [lastrel] in *.
    + destruct LR as (A & B & C). split; [exact A|]. split; [exact Logic.I|]. intros k K _ R. apply (C k K); [|exact R]. split; [exact (NB _ _ R)|]. exact (C3 k _ (NB _ _ R) R).
    + intros k _ R. apply (LR k); [|exact R]. split; [exact (NB _ _ R)|]. exact (C3 k _ (NB _ _ R) R).
Qed.
End table.

Lemma in_znth' : forall (r : secref) l, In r l -> exists i, znth l i = Some r.
Proof.
  intros r. induction l as [|x l IH]; intros I; [contradiction|]. destruct I as [<-|I]; [exists 0; rewrite SegProof.znth_cons; reflexivity|]. destruct (IH I) as (i & E). pose proof (znth_range _ _ _ _ E). exists (i + 1). rewrite SegProof.znth_cons. replace (i + 1 =? 0) with false by lia. rewrite <- E. f_equal. lia.
Qed.
(* the search *)
Section find.
Variables (refs : list secref) (addr : Z).
Definition right_place (i off : Z) : Prop := exists r, znth refs i = Some r /\ q_start r <= addr /\ (addr <= q_end r \/ addr = q_start r) /\ off = u64 (addr - q_start r).
Lemma loop_sound : forall fuel l u, 0 <= l -> l <= u -> u <= zlen refs -> u - l < Z.of_nat fuel ->
  match find_loop fuel refs addr l u with
  | Ok (Some (i, off)) => right_place i off
  | Ok None => True
  | _ => False
  end.
Proof.
  induction fuel as [|fuel IH]; intros l u L LU U FU; [lia|]. cbn [find_loop]. destruct (l <? u) eqn:C; [|exact Logic.I].
  assert (B : l <= (l + u) / 2 < u) by (split; [apply Z.div_le_lower_bound; lia|apply Z.div_lt_upper_bound; lia]). set (idx := (l + u) / 2) in *. cbn zeta.
  destruct (znth refs idx) as [r|] eqn:E; [|apply znth_None in E; lia].
  destruct (addr <? q_start r) eqn:C1; [apply IH; lia|]. destruct (q_end r <? addr) eqn:C2; [apply IH; lia|].
  assert (H : right_place idx (u64 (addr - q_start r))) by (exists r; split; [exact E|]; split; [lia|]; split; [left; lia|reflexivity]).
  destruct (addr =? q_end r) eqn:C3; [|exact H]. destruct (znth refs (idx + 1)) as [r'|] eqn:E'; [|exact H]. destruct (addr =? q_start r') eqn:C4; [|exact H].
  exists r'. split; [exact E'|]. split; [lia|]. split; [right; lia|reflexivity].
Qed.
Hypothesis SP : forall i j a b, i < j -> znth refs i = Some a -> znth refs j = Some b -> q_end a <= q_start b.
Hypothesis NE : forall r, In r refs -> q_start r < q_end r.
Definition best (o : option (Z * Z)) : Prop :=
  match o with
  | Some (i, off) => exists r, znth refs i = Some r /\ off = u64 (addr - q_start r) /\ (q_start r <= addr < q_end r \/ (addr = q_end r /\ forall r', In r' refs -> q_start r' <> addr))
  | None => forall r, In r refs -> ~ (q_start r <= addr <= q_end r)
  end.
Lemma loop_spaced : forall fuel l u, 0 <= l -> l <= u -> u <= zlen refs -> u - l < Z.of_nat fuel ->
  (forall i r, i < l -> znth refs i = Some r -> q_end r < addr) -> (forall i r, u <= i -> znth refs i = Some r -> addr < q_start r) ->
  exists o, find_loop fuel refs addr l u = Ok o /\ best o.
Proof.
  assert (NZ : forall i r, znth refs i = Some r -> q_start r < q_end r) by (intros i r E; apply NE; exact (proj1 (SegProof.znth_in _ _ _ _ E))).
  induction fuel as [|fuel IH]; intros l u L LU U FU HL HU; [lia|]. cbn [find_loop]. destruct (l <? u) eqn:C.
  2:{ exists None. split; [reflexivity|]. intros r I. destruct (in_znth' r refs I) as (i & E). destruct (Z_lt_le_dec i l) as [Q|Q]; [specialize (HL i r Q E); lia|specialize (HU i r ltac:(lia) E); lia]. }
  assert (B : l <= (l + u) / 2 < u) by (split; [apply Z.div_le_lower_bound; lia|apply Z.div_lt_upper_bound; lia]). set (idx := (l + u) / 2) in *. cbn zeta.
  destruct (znth refs idx) as [r|] eqn:E; [|apply znth_None in E; lia]. pose proof (NZ _ _ E) as NR.
  destruct (addr <? q_start r) eqn:C1.
  { apply IH; try lia; [exact HL|]. intros i r1 I E1. destruct (Z.eq_dec i idx) as [->|NI]; [rewrite E in E1; injection E1 as <-; lia|]. pose proof (SP idx i r r1 ltac:(lia) E E1). lia. }
  destruct (q_end r <? addr) eqn:C2.
  { apply IH; try lia; [|exact HU]. intros i r1 I E1. destruct (Z.eq_dec i idx) as [->|NI]; [rewrite E in E1; injection E1 as <-; lia|]. pose proof (SP i idx r1 r ltac:(lia) E1 E). pose proof (NZ _ _ E1). lia. }
  destruct (addr =? q_end r) eqn:C3.
  - assert (LAST : (forall r', znth refs (idx + 1) = Some r' -> q_start r' <> addr) -> best (Some (idx, u64 (addr - q_start r)))).
    { intros H. exists r. split; [exact E|]. split; [reflexivity|]. right. split; [lia|]. intros r' I. destruct (in_znth' r' refs I) as (i & E'). destruct (Z_le_gt_dec i idx) as [Q|Q].
      - destruct (Z.eq_dec i idx) as [->|NI]; [rewrite E in E'; injection E' as <-; lia|]. pose proof (SP i idx r' r ltac:(lia) E' E). pose proof (NZ _ _ E'). lia.
      - destruct (Z.eq_dec i (idx + 1)) as [->|NI]; [exact (H r' E')|]. assert (R1 : 0 <= idx + 1 < zlen refs) by (apply znth_range in E'; lia). destruct (znth_in _ refs (idx + 1) R1) as (r1 & E1).
        pose proof (SP idx (idx + 1) r r1 ltac:(lia) E E1). pose proof (SP (idx + 1) i r1 r' ltac:(lia) E1 E'). pose proof (NZ _ _ E1). lia. }
    destruct (znth refs (idx + 1)) as [r'|] eqn:E'.
    + destruct (addr =? q_start r') eqn:C4.
      * eexists. split; [reflexivity|]. exists r'. split; [exact E'|]. split; [reflexivity|]. left. pose proof (NZ _ _ E'). lia.
      * eexists. split; [reflexivity|]. apply LAST. intros x X. injection X as <-. lia.
    + eexists. split; [reflexivity|]. apply LAST. discriminate.
  - eexists. split; [reflexivity|]. exists r. split; [exact E|]. split; [reflexivity|]. left. lia.
Qed.
Lemma find_spaced : exists o, find_section refs addr = Ok o /\ best o.
Proof.
  unfold find_section. apply loop_spaced; unfold zlen; try lia.
  - intros i r I E. apply znth_range in E. lia.
  - intros i r I E. apply znth_range in E. unfold zlen in E. lia.
Qed.
End find.
Lemma find_sound : forall refs addr, match find_section refs addr with Ok (Some (i, off)) => right_place refs addr i off | Ok None => True | _ => False end.
Proof. intros. unfold find_section. apply loop_sound; unfold zlen; lia. Qed.
