(* elf_rand in a well-formed archive. *)
From Verif Require Import Base LebModel ElfErr HashModel HashSpec HashProof DwModel UnitProps SegProof Slice CfiSafe ArModel ArSpec ArProof Ar2Proof Ar3Proof.
Require Import ZArith List Lia Bool ZifyBool. Import ListNotations. Open Scope Z_scope.

Definition known (x : option bytes) (long : option bytes) : Prop := long = None \/ long = x.
Lemma name_known : forall fuel r off long n long' x, read_long_names fuel r = Ok x -> name_of fuel r off long = Ok (n, long') -> known x long -> known x long'.
Proof.
  intros fuel r off long n long' x RL H K. unfold name_of in H. destruct (byte_at (r_mem r) off) as [c0| | |]; try discriminate. cbn [obind] in H.
  destruct (byte_at (r_mem r) (off + 1)) as [c1| | |]; try discriminate. cbn [obind] in H.
  destruct (c0 =? 47); [|injection H as _ <-; exact K].
  destruct ((c1 =? 32) && _); [injection H as _ <-; exact K|]. destruct ((c1 =? 83) && _); [injection H as _ <-; exact K|].
  destruct ((c1 =? 47) && _); [injection H as _ <-; exact K|]. destruct (isdigit c1); [|injection H as _ <-; exact K].
  destruct long as [t|].
  - cbn [obind] in H. destruct (atol (r_mem r) (off + 1)) as [i| | |]; try discriminate. cbn [obind] in H. destruct (zlen t <=? u64 i); injection H as _ <-; exact K.
  - rewrite RL in H. cbn [obind] in H. destruct x as [t|]; [|injection H as _ <-; exact K].
    destruct (atol (r_mem r) (off + 1)) as [i| | |]; try discriminate. cbn [obind] in H. destruct (zlen t <=? u64 i); injection H as _ <-; right; reflexivity.
Qed.
Lemma next_known : forall fuel r s e s' x, read_long_names fuel r = Ok x -> next_arhdr fuel r s = Ok (e, s') -> known x (t_long s) -> known x (t_long s').
Proof.
  intros fuel r s e s' x RL H K. unfold next_arhdr in H. match type of H with (if ?c then _ else _) = _ => destruct c end; [injection H as _ <-; exact K|].
  match type of H with (if ?c then _ else _) = _ => destruct c end; [injection H as _ <-; exact K|].
  destruct (name_of fuel r (t_off s) (t_long s)) as [[name long]| | |] eqn:N; try discriminate. cbn [obind] in H. pose proof (name_known _ _ _ _ _ _ _ RL N K) as K'.
  destruct name; [|injection H as _ <-; exact K']. destruct (byte_at (r_mem r) (t_off s + 48)) as [c| | |]; try discriminate. cbn [obind] in H.
  destruct (c =? 32); [injection H as _ <-; exact K'|].
  repeat match type of H with obind (int_field ?m ?p ?n) _ = _ => destruct (int_field m p n); try discriminate; cbn [obind] in H end.
  match type of H with (if ?c then _ else _) = _ => destruct c end; injection H as _ <-; exact K'.
Qed.
Lemma reach_known : forall fuel r s x, read_long_names fuel r = Ok x -> reach fuel r s -> known x (t_long s).
Proof.
  intros fuel r s x RL H. induction H as [|s b s' H IH N|s o v s' H IH O N|s m s' H IH N|s h s' H IH N].
  - left. reflexivity.
  - unfold ar_next in N. set (s1 := Ast _ _ _) in N. destruct (next_arhdr fuel r s1) as [[e s2]| | |] eqn:E; try discriminate. cbn [obind] in N.
    pose proof (next_known _ _ _ _ _ _ RL E IH). destruct (e =? 0); injection N as _ <-; assumption.
  - unfold ar_rand in N. set (s1 := Ast _ _ _) in N. destruct (next_arhdr fuel r s1) as [[e s2]| | |] eqn:E; try discriminate. cbn [obind] in N.
    pose proof (next_known _ _ _ _ _ _ RL E IH). destruct (e =? 0); injection N as _ <-; assumption.
  - unfold ar_begin in N. destruct (h_name (t_hdr s)).
    + cbn [obind] in N. cbn [Z.eqb negb] in N. cbv zeta in N. destruct (_ =? two64 - 1); [discriminate|]. destruct (_ && _ && _); [discriminate|]. injection N as _ <-. exact IH.
    + destruct (next_arhdr fuel r s) as [[e s2]| | |] eqn:E; try discriminate. cbn [obind] in N. pose proof (next_known _ _ _ _ _ _ RL E IH). destruct (negb (e =? 0)); [discriminate|].
      cbv zeta in N. destruct (_ =? two64 - 1); [discriminate|]. destruct (_ && _ && _); [discriminate|]. injection N as _ <-. assumption.
  - unfold ar_gethdr in N. destruct (h_name (t_hdr s)); [injection N as _ <-; exact IH|].
    destruct (next_arhdr fuel r s) as [[e s2]| | |] eqn:E; try discriminate. cbn [obind] in N. pose proof (next_known _ _ _ _ _ _ RL E IH) as K2. destruct (e =? 0); [injection N as _ <-; exact K2|].
    destruct (next_arhdr fuel r s2) as [[e2 s3]| | |] eqn:E2; try discriminate. cbn [obind] in N. pose proof (next_known _ _ _ _ _ _ RL E2 K2) as K3. destruct (e2 =? 0); [injection N as _ <-; exact K3|discriminate].
Qed.

(* the member a reported place belongs to *)
Lemma reported_at : forall mem tab ms body, members ms body -> forall o ns l, at_ mem o body -> reports mem o ms ns l -> Forall2 (fun m n => named tab (m_name m) n) ms ns ->
  forall p n h, In (p, n, h) l -> exists m h1 nm, header m h1 /\ at_ mem (p - 60) h1 /\ named tab (m_name m) nm /\ n = zlen (m_data m) /\ o + 60 <= p /\ p + n <= o + zlen body /\ shows_hdr m nm h.
Proof.
  intros mem tab ms body MB. induction MB as [|m h1 H|m h1 pad ms b H PD MB IH]; intros o ns l A R FN p n h IN; inversion R as [|? ? ? nm ns' hh hs SH ZD R']; subst; [destruct IN| |].
  - inversion R'; subst. destruct IN as [IN|[]]. injection IN as <- <- <-. inversion FN; subst. exists m, h1, nm. rewrite zlen_app, (header_len _ _ H).
    replace (o + 60 - 60) with o by lia. pose proof (at_app1 _ _ _ _ A). intuition lia.
  - inversion FN; subst. pose proof (zlen_nonneg _ b). pose proof (zlen_nonneg _ (m_data m)). pose proof (zlen_nonneg _ pad). destruct IN as [IN|IN].
    + injection IN as <- <- <-. exists m, h1, nm. rewrite !zlen_app, (header_len _ _ H). replace (o + 60 - 60) with o by lia. pose proof (at_app1 _ _ _ _ A). intuition lia.
    + apply at_app2, at_app2, at_app2 in A. rewrite (header_len _ _ H), PD in A. destruct (IH _ _ _ A R' ltac:(assumption) _ _ _ IN) as (m' & h' & nm' & Q1 & Q2 & Q3 & Q4 & Q5 & Q6 & Q7).
      exists m', h', nm'. rewrite !zlen_app, (header_len _ _ H), PD. split; [exact Q1|]. split; [exact Q2|]. split; [exact Q3|]. split; [exact Q4|]. split; [lia|]. split; [lia|exact Q7].
Qed.
Lemma digits_unique : forall ds ds' k k', Forall digit ds -> Forall digit ds' -> ds ++ repeat 32 k = ds' ++ repeat 32 k' -> ds = ds'.
Proof.
  induction ds as [|d ds IH]; intros [|d' ds'] k k' F F' E; cbn [app] in E; auto.
  - exfalso. destruct k; [discriminate|]. cbn in E. injection E as E _. inversion F'; subst. unfold digit in *. lia.
  - exfalso. destruct k'; [discriminate|]. cbn in E. injection E as E _. inversion F; subst. unfold digit in *. lia.
  - injection E as -> E. inversion F; inversion F'; subst. f_equal. apply (IH ds' k k'); assumption.
Qed.
Lemma shows_unique : forall m n h h', shows_hdr m n h -> shows_hdr m n h' -> h = h'.
Proof.
  intros m n [] [] (A1 & A2 & A3 & A4 & A5 & A6 & ds & k & A7 & _ & A8 & A9) (B1 & B2 & B3 & B4 & B5 & B6 & ds' & k' & B7 & _ & B8 & B9). cbn in *.
  rewrite A7 in B7. pose proof (digits_unique _ _ _ _ A8 B8 B7). subst ds'. congruence.
Qed.
