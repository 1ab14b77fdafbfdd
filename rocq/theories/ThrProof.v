(* Proofs about the threads of a core file. *)
From Coq Require Import Sorting.Sorted.
From Verif Require Import Base CoreModel CoreSpec CoreProof ThrModel ThrSpec.

Lemma note_pid_ok : forall big n, whole n ->
  note_pid big NT_PRSTATUS n = match thread_of big n with Some t => Some (Some t) | None => None end.
Proof.
  intros big n W. unfold note_pid, thread_of, NT_PRSTATUS. destruct (t_known n); [|reflexivity]. destruct (t_type n =? 1); [|reflexivity]. cbn.
  destruct (find i_pid (t_items n)) as [i|] eqn:F; [|reflexivity]. apply find_some in F. destruct (W i (proj1 F)) as (W1 & W2).
  unfold num, at_offset. replace ((0 <=? i_off i) && (i_off i + 4 <=? zlen (t_desc n))) with true by lia. reflexivity.
Qed.
Lemma skip_S : forall A (l : list A) n x r, skipn n l = x :: r -> skipn (S n) l = r.
Proof. intros A l. induction l as [|y l IH]; intros [|n] x r H; cbn in *; try discriminate; [congruence | exact (IH n x r H)]. Qed.

Section thr.
Variables (big : bool) (notes : list (option tnote)).
Hypothesis Hn : notes_ok big notes.

Lemma loop_threads : forall (A : Type) (cb : Z -> nat -> A -> Z * A) l pos k a,
  skipn pos notes = l -> (forall t i, In (t, i) (thread_list big l pos) -> 0 < t) -> (length l < k)%nat ->
  exists p, threads_loop big notes A (plain cb) k (pos, a) = Tret (fst (visit cb (thread_list big l pos) a)) (p, snd (visit cb (thread_list big l pos) a)).
Proof.
  intros A cb l. induction l as [|x l IH]; intros pos k a E T K; (destruct k as [|k]; [lia|]).
  - cbn [threads_loop fst]. unfold next_thread. rewrite E. cbn. exists pos. reflexivity.
  - pose proof (skip_S _ _ _ _ _ E) as E'. assert (I : In x notes) by (rewrite <- (firstn_skipn pos notes), E; apply in_app_iff; right; left; reflexivity).
    destruct x as [n|].
    + pose proof (note_pid_ok big n (Hn n I)) as N. cbn [thread_list] in *. destruct (thread_of big n) as [t|] eqn:Tn.
      * cbn [threads_loop fst]. unfold next_thread. rewrite E. cbn [scan_notes]. rewrite N.
        pose proof (T t pos (or_introl eq_refl)). replace (t <? 0) with false by lia. replace (t =? 0) with false by lia.
        unfold plain at 1. cbn [fst snd visit]. destruct (cb t pos a) as [v a'] eqn:C. destruct (Z.eqb_spec v 0) as [-> | V].
        -- apply IH; [exact E' | intros t' i' H'; exact (T t' i' (or_intror H')) | cbn in K; lia].
        -- exists (S pos). destruct v; [congruence | reflexivity | reflexivity].
      * destruct (IH (S pos) (S k) a E' T ltac:(cbn in K; lia)) as (p & P). exists p. rewrite <- P.
        cbn [threads_loop fst]. unfold next_thread. rewrite E, E'. cbn [scan_notes]. rewrite N. reflexivity.
    + cbn [threads_loop fst]. unfold next_thread. rewrite E. cbn. exists O. reflexivity.
Qed.
Lemma loop_ends : forall (A : Type) (cb : Z -> nat -> A -> Z * A) t i post, t <= 0 -> forall l pos k pre a,
  skipn pos notes = l -> thread_list big l pos = pre ++ (t, i) :: post -> Forall (fun x => 0 < fst x) pre -> (length l < k)%nat ->
  exists p, threads_loop big notes A (plain cb) k (pos, a) =
    Tret (if fst (visit cb pre a) =? 0 then (if t <? 0 then -1 else 0) else fst (visit cb pre a)) (p, snd (visit cb pre a)).
Proof.
  intros A cb t i post T l. induction l as [|x l IH]; intros pos k pre a E L P K; (destruct k as [|k]; [lia|]).
  - cbn in L. destruct pre; discriminate L.
  - pose proof (skip_S _ _ _ _ _ E) as E'. assert (I : In x notes) by (rewrite <- (firstn_skipn pos notes), E; apply in_app_iff; right; left; reflexivity).
    destruct x as [n|]; [|cbn in L; destruct pre; discriminate L].
    pose proof (note_pid_ok big n (Hn n I)) as N. cbn [thread_list] in *. destruct (thread_of big n) as [t'|] eqn:Tn.
    + cbn [threads_loop fst]. unfold next_thread. rewrite E. cbn [scan_notes]. rewrite N. destruct pre as [|[t1 i1] pre]; cbn [app] in L; injection L as -> -> L.
      * cbn [visit fst snd]. exists (S i). cbn [Z.eqb]. destruct (t <? 0) eqn:Q; [reflexivity|]. replace (t =? 0) with true by lia. reflexivity.
      * apply Forall_cons_iff in P. destruct P as (P1 & P2). cbn [fst] in P1. replace (t1 <? 0) with false by lia. replace (t1 =? 0) with false by lia.
        unfold plain at 1. cbn [fst snd visit]. destruct (cb t1 i1 a) as [v a'] eqn:C. destruct (Z.eqb_spec v 0) as [-> | V].
        -- apply IH; auto. cbn in K; lia.
        -- exists (S i1). cbn [fst snd]. replace (v =? 0) with false by lia. destruct v; [congruence | reflexivity | reflexivity].
    + destruct (IH (S pos) (S k) pre a E' L P ltac:(cbn in K; lia)) as (p & Q). exists p. rewrite <- Q.
      cbn [threads_loop fst]. unfold next_thread. rewrite E, E'. cbn [scan_notes]. rewrite N. reflexivity.
Qed.
End thr.

Lemma visit_one : forall (A : Type) (cb : Z -> nat -> A -> Z * A) tid l a,
  visit (fun t i (s : A * option Z) => match snd s with None => if t =? tid then let (v, a) := cb t i (fst s) in (1, (a, Some v)) else (0, s) | Some _ => (0, s) end) l (a, None) =
  match find (fun p => fst p =? tid) l with
  | Some (t, i) => (1, (snd (cb t i a), Some (fst (cb t i a))))
  | None => (0, (a, None))
  end.
Proof.
  intros A cb tid l. induction l as [|[t i] l IH]; intros a; [reflexivity|]. cbn [visit snd fst find].
  destruct (t =? tid); [destruct (cb t i a) as [v a']; reflexivity|]. cbn. apply IH.
Qed.

Section regs.
Variables (big : bool) (nregs : Z).
Lemma one_loc_ok : forall l d n regno at_ s s',
  (forall r, regno <= r < regno + Z.of_nat n -> r < nregs -> reg_of s r = None) ->
  one_loc big nregs n regno at_ l d s = Some s' ->
  (forall r, r < nregs -> regno <= r < regno + Z.of_nat n -> reg_of s' r = num big d (at_ + (r - regno) * (l_bits l / 8 + l_pad l)) (l_bits l / 8) /\ reg_of s' r <> None) /\
  (forall r, ~ (r < nregs /\ regno <= r < regno + Z.of_nat n) -> reg_of s' r = reg_of s r) /\
  (l_pc l = false -> r_pc s' = r_pc s) /\
  (l_pc l = true -> (0 < n)%nat -> r_pc s' = num big d (at_ + (Z.of_nat n - 1) * (l_bits l / 8 + l_pad l)) (l_bits l / 8)).
Proof.
  intros l d n. induction n as [|n IH]; intros regno at_ s s' U E; cbn [one_loc] in E.
  - injection E as <-. split; [intros r _ H; lia|]. split; [reflexivity|]. split; [reflexivity | lia].
  - assert (X : (regno <? nregs) && match reg_of s regno with Some _ => true | None => false end = false).
    { destruct (Z.ltb_spec regno nregs) as [L | L]; [|reflexivity]. rewrite (U regno) by lia. reflexivity. }
    rewrite X in E. destruct (num big d at_ (l_bits l / 8)) as [v|] eqn:V; [|discriminate].
    set (s1 := if regno <? nregs then Rst ((regno, v) :: r_regs s) (r_pc s) else s) in E.
    set (s2 := if l_pc l then Rst (r_regs s1) (Some v) else s1) in E.
    assert (R2 : forall r, reg_of s2 r = reg_of s1 r) by (intros r; unfold s2; destruct (l_pc l); reflexivity).
    assert (R1 : forall r, reg_of s1 r = if (regno =? r) && (regno <? nregs) then Some v else reg_of s r).
    { intros r. unfold s1. destruct (Z.ltb_spec regno nregs); unfold reg_of; cbn; [rewrite Bool.andb_true_r; destruct (regno =? r); reflexivity | rewrite Bool.andb_false_r; reflexivity]. }
    pose proof E as E0. apply IH in E.
    2:{ intros r H1 H2. rewrite R2, R1. replace (regno =? r) with false by lia. cbn [andb]. apply U; lia. }
    destruct E as (E1 & E2 & E3 & E4). split; [|split; [|split]].
    + intros r H1 H2. destruct (Z.eq_dec r regno) as [-> | Ne].
      * rewrite (E2 regno) by lia. rewrite R2, R1. replace ((regno =? regno) && (regno <? nregs)) with true by lia.
        replace (at_ + (regno - regno) * (l_bits l / 8 + l_pad l)) with at_ by lia. rewrite V. split; [reflexivity | discriminate].
      * destruct (E1 r H1 ltac:(lia)) as (F1 & F2). split; [|exact F2]. rewrite F1. f_equal.
        replace (r - regno) with (r - (regno + 1) + 1) by lia. rewrite (Z.mul_add_distr_r (r - (regno + 1))). lia.
    + intros r H. rewrite E2 by lia. rewrite R2, R1. replace ((regno =? r) && (regno <? nregs)) with false by lia. reflexivity.
    + intros P. rewrite (E3 P). unfold s2. rewrite P. unfold s1. destruct (regno <? nregs); reflexivity.
    + intros P _. destruct n as [|n].
      * cbn [one_loc] in E0. injection E0 as <-. replace (at_ + (Z.of_nat 1 - 1) * (l_bits l / 8 + l_pad l)) with at_ by lia. rewrite V.
        unfold s2. rewrite P. reflexivity.
      * rewrite (E4 P ltac:(lia)). f_equal. rewrite (Nat2Z.inj_succ (S n)). replace (Z.succ (Z.of_nat (S n)) - 1) with (Z.of_nat (S n) - 1 + 1) by lia.
        rewrite (Z.mul_add_distr_r (Z.of_nat (S n) - 1)). lia.
Qed.

Lemma regs_in_nat : forall l, 0 <= l_count l -> Z.of_nat (Z.to_nat (if l_count l =? 0 then 1 else l_count l)) = regs_in l.
Proof. intros l H. unfold regs_in. destruct (Z.eqb_spec (l_count l) 0); lia. Qed.

Lemma all_locs_ok : forall base d ls s s',
  (forall l, In l ls -> 0 <= l_count l) -> apart nregs ls ->
  (forall l r, In l ls -> r < nregs -> covers l r -> reg_of s r = None) ->
  all_locs big nregs ls base d s = Some s' ->
  (forall l r, In l ls -> r < nregs -> covers l r -> reg_of s' r = num big d (place base l r) (l_bits l / 8) /\ reg_of s' r <> None) /\
  (forall r, (r < nregs -> forall l, In l ls -> ~ covers l r) -> reg_of s' r = reg_of s r) /\
  ((forall l, In l ls -> l_pc l = false) -> r_pc s' = r_pc s).
Proof.
  intros base d ls. induction ls as [|l ls IH]; intros s s' C Ap U E; cbn [all_locs] in E.
  - injection E as <-. split; [intros l r []|]. split; reflexivity.
  - apply StronglySorted_inv in Ap. destruct Ap as (Ap & Fl). rewrite Forall_forall in Fl.
    assert (C' : forall l0, In l0 ls -> 0 <= l_count l0) by (intros l0 H; apply C; right; exact H).
    destruct (negb ((l_bits l =? 32) || (l_bits l =? 64))) eqn:B.
    + assert (Nu : ~ usable l) by (unfold usable; lia).
      destruct (IH s s' C' Ap (fun l0 r H => U l0 r (or_intror H)) E) as (E1 & E2 & E3). split; [|split].
      * intros l0 r [<- | I] Hr Cv; [destruct Cv; contradiction | exact (E1 l0 r I Hr Cv)].
      * intros r H. apply E2. intros Hr l0 I. apply H; [exact Hr | right; exact I].
      * intros H. apply E3. intros l0 I. apply H. right. exact I.
    + assert (Us : usable l) by (unfold usable; lia).
      destruct (one_loc big nregs (Z.to_nat (if l_count l =? 0 then 1 else l_count l)) (l_regno l) (base + l_off l) l d s) as [s1|] eqn:O; [|discriminate].
      pose proof (regs_in_nat l (C l (or_introl eq_refl))) as Rn.
      apply one_loc_ok in O.
      2:{ intros r H1 H2. rewrite Rn in H1. apply (U l r (or_introl eq_refl) H2). split; [exact Us | exact H1]. }
      rewrite Rn in O. destruct O as (O1 & O2 & O3 & _).
      destruct (IH s1 s' C' Ap) with (2 := E) as (E1 & E2 & E3).
      { intros l0 r I Hr Cv. rewrite O2; [exact (U l0 r (or_intror I) Hr Cv)|]. intros (_ & H). apply (Fl l0 I r Hr). split; [split; [exact Us | exact H] | exact Cv]. }
      split; [|split].
      * intros l0 r [<- | I] Hr Cv; [|exact (E1 l0 r I Hr Cv)]. rewrite E2.
        -- unfold place. apply O1; [exact Hr | exact (proj2 Cv)].
        -- intros _ l0 I Cv0. exact (Fl l0 I r Hr (conj Cv Cv0)).
      * intros r H. rewrite E2 by (intros Hr l0 I; apply H; [exact Hr | right; exact I]). apply O2.
        intros (Hr & H'). exact (H Hr l (or_introl eq_refl) (conj Us H')).
      * intros H. rewrite E3 by (intros l0 I; apply H; right; exact I). apply O3. apply H. left. reflexivity.
Qed.

Lemma one_loc_some : forall l d n regno at_ s, 0 <= l_pad l -> usable l -> 0 <= at_ ->
  (n = O \/ at_ + (Z.of_nat n - 1) * (l_bits l / 8 + l_pad l) + l_bits l / 8 <= zlen d) ->
  exists s', one_loc big nregs n regno at_ l d s = Some s'.
Proof.
  intros l d n. induction n as [|n IH]; intros regno at_ s P Us A W; cbn [one_loc]; [exists s; reflexivity|].
  assert (St : 4 <= l_bits l / 8) by (destruct Us as [-> | ->]; vm_compute; discriminate).
  destruct W as [W | W]; [discriminate|].
  assert (W1 : at_ + l_bits l / 8 <= zlen d) by nia.
  assert (W2 : n = O \/ at_ + (l_bits l / 8 + l_pad l) + (Z.of_nat n - 1) * (l_bits l / 8 + l_pad l) + l_bits l / 8 <= zlen d).
  { destruct n as [|n]; [left; reflexivity | right]. rewrite (Nat2Z.inj_succ (S n)) in W. nia. }
  destruct ((regno <? nregs) && match reg_of s regno with Some _ => true | None => false end).
  - apply IH; [exact P | exact Us | exact A | destruct W2 as [W2 | W2]; [left; exact W2 | right; nia]].
  - unfold num at 1. replace ((0 <=? at_) && (at_ + l_bits l / 8 <=? zlen d)) with true by lia.
    apply IH; [exact P | exact Us | lia | destruct W2 as [W2 | W2]; [left; exact W2 | right; lia]].
Qed.
Lemma all_locs_some : forall base d ls s,
  (forall l, In l ls -> usable l -> 0 <= l_count l /\ 0 <= l_pad l /\ 0 <= base + l_off l /\ place base l (l_regno l + regs_in l - 1) + l_bits l / 8 <= zlen d) ->
  exists s', all_locs big nregs ls base d s = Some s'.
Proof.
  intros base d ls. induction ls as [|l ls IH]; intros s H; cbn [all_locs]; [exists s; reflexivity|].
  assert (H' : forall l0, In l0 ls -> usable l0 -> 0 <= l_count l0 /\ 0 <= l_pad l0 /\ 0 <= base + l_off l0 /\ place base l0 (l_regno l0 + regs_in l0 - 1) + l_bits l0 / 8 <= zlen d)
    by (intros l0 I; apply H; right; exact I).
  destruct (negb ((l_bits l =? 32) || (l_bits l =? 64))) eqn:B; [exact (IH s H')|].
  assert (Us : usable l) by (unfold usable; lia). destruct (H l (or_introl eq_refl) Us) as (H1 & H2 & H3 & H4).
  destruct (one_loc_some l d (Z.to_nat (if l_count l =? 0 then 1 else l_count l)) (l_regno l) (base + l_off l) s H2 Us H3) as (s1 & ->).
  - right. rewrite regs_in_nat by exact H1. unfold place in H4. replace (l_regno l + regs_in l - 1 - l_regno l) with (regs_in l - 1) in H4 by lia. exact H4.
  - exact (IH s1 H').
Qed.
End regs.

Section words.
Variables (big : bool) (align : Z) (Ha : 0 < align).
Lemma word_at_ok : forall file l a w p, Forall (good_ph align) l -> in_order l -> In p l -> 0 < w ->
  c_load p = true -> c_vaddr p <= a -> a + w <= c_vaddr p + c_memsz p ->
  word_at big align l file w a = num big file (c_off p + (a - c_vaddr p)) w.
Proof.
  intros file l a w p. induction l as [|q l IH]; intros G O I W Lp V1 V2; [destruct I|].
  pose proof (Forall_inv G) as Gq. apply Forall_inv_tail in G. apply StronglySorted_inv in O. destruct O as (O & Fo). rewrite Forall_forall in Fo.
  cbn [word_at]. destruct (c_load q) eqn:Lq; cbn [negb orb].
  2:{ destruct I as [-> | I]; [congruence|]. apply IH; assumption. }
  destruct (Gq Lq) as (q1 & q2 & q3 & q4 & q5 & q6 & q7 & q8 & q9).
  assert (Rq : round_up align (c_vaddr q + c_memsz q) = c_vaddr q + c_memsz q) by (apply round_id; [exact Ha | lia | lia | apply mod_sum; assumption]).
  rewrite Rq, q7, Z.sub_0_r. destruct I as [-> | I].
  - unfold u64. rewrite (Z.mod_small (a + w)) by lia. replace (a <? c_vaddr p) with false by lia. replace (c_vaddr p + c_memsz p <? a + w) with false by lia. cbn [orb].
    f_equal. rewrite Z.mod_small; lia.
  - destruct (Fo p I eq_refl Lp) as (_ & Fp). assert (Gp : good_ph align p) by (rewrite Forall_forall in G; exact (G p I)).
    destruct (Gp Lp) as (p1 & p2 & p3 & p4 & _). unfold u64. rewrite (Z.mod_small (a + w)) by lia.
    replace (c_vaddr q + c_memsz q <? a + w) with true by lia. rewrite Bool.orb_true_r. apply IH; assumption.
Qed.
Lemma word_at_none : forall file l a w, Forall (good_ph align) l -> 0 <= a -> 0 < w -> a + w < 2 ^ 64 ->
  (forall p, In p l -> c_load p = true -> a < c_vaddr p \/ c_vaddr p + c_memsz p < a + w) -> word_at big align l file w a = None.
Proof.
  intros file l a w. induction l as [|q l IH]; intros G A W S H; [reflexivity|].
  pose proof (Forall_inv G) as Gq. apply Forall_inv_tail in G. cbn [word_at]. destruct (c_load q) eqn:Lq; cbn [negb orb].
  2:{ apply IH; try assumption. intros p I. apply H. right. exact I. }
  destruct (Gq Lq) as (q1 & q2 & q3 & q4 & q5 & q6 & q7 & q8 & q9).
  assert (Rq : round_up align (c_vaddr q + c_memsz q) = c_vaddr q + c_memsz q) by (apply round_id; [exact Ha | lia | lia | apply mod_sum; assumption]).
  rewrite Rq, q7, Z.sub_0_r. unfold u64. rewrite (Z.mod_small (a + w)) by lia.
  replace ((a <? c_vaddr q) || (c_vaddr q + c_memsz q <? a + w)) with true by (destruct (H q (or_introl eq_refl) Lq); lia).
  apply IH; try assumption. intros p I. apply H. right. exact I.
Qed.
End words.
