From Verif Require Import Base ScnModel.

(* the used part of block number k, whose first section has index s *)
Record blk_ok (b : scnlist) (s : Z) (k : nat) : Prop := {
  bk_len : zlen (sl_data b) = sl_max b;
  bk_cnt : 0 <= sl_cnt b <= sl_max b;
  bk_max : 1 <= sl_max b < two32;
  bk_data : forall j, 0 <= j < sl_cnt b ->
    znth (sl_data b) j = Some {| sc_index := s + j; sc_ready := true; sc_list := Some k |}
}.

Fixpoint chain (s : Z) (k : nat) (pre : list scnlist) (e : Z) : Prop :=
  match pre with
  | [] => s = e
  | b :: r => blk_ok b s k /\ sl_cnt b = sl_max b /\ chain (s + sl_max b) (S k) r e
  end.

Lemma chain_le : forall pre s k e, chain s k pre e -> s <= e.
Proof.
  induction pre as [|b pre IH]; intros s k e H; simpl in H; [lia|].
  destruct H as (H1 & _ & H2). apply IH in H2. pose proof (bk_max _ _ _ H1). lia.
Qed.

Lemma chain_snoc : forall pre s k e b, chain s k pre e -> blk_ok b e (k + length pre) ->
  sl_cnt b = sl_max b -> chain s k (pre ++ [b]) (e + sl_max b).
Proof.
  induction pre as [|c pre IH]; intros s k e b H Hb Hc; simpl in *.
  - subst. rewrite Nat.add_0_r in Hb. auto.
  - destruct H as (H1 & H2 & H3). split; [exact H1|]. split; [exact H2|].
    apply IH; auto. now replace (S k + length pre)%nat with (k + S (length pre))%nat by lia.
Qed.

Record inv (st : scns) (n : Z) : Prop := {
  iv_ex : exists pre b s, ss_blocks st = pre ++ [b] /\ chain 0 0 pre s /\ blk_ok b s (length pre) /\
     (pre <> [] -> 1 <= sl_cnt b) /\ n = s + sl_cnt b /\
     (pre = [] /\ ss_incr st = 10 \/ pre <> [] /\ ss_incr st = sl_max b)
}.

Definition ptr_of (st : scns) (i : Z) : option sptr := getscn_loop (ss_blocks st) 0 i.

Lemma look_pre : forall pre rest s k e idx, chain s k pre e -> 0 <= idx ->
  getscn_loop (pre ++ rest) k idx =
  if idx <? e - s then getscn_loop pre k idx
  else getscn_loop rest (k + length pre) (idx - (e - s)).
Proof.
  induction pre as [|b pre IH]; intros rest s k e idx H Hi; simpl in H.
  - subst. simpl. replace (idx <? e - e) with false by lia.
    rewrite Nat.add_0_r. f_equal. lia.
  - destruct H as (H1 & H2 & H3). pose proof (bk_max _ _ _ H1). pose proof (chain_le _ _ _ _ H3).
    cbn [app getscn_loop]. destruct (Z.ltb_spec idx (sl_max b)).
    + replace (idx <? e - s) with true by lia. reflexivity.
    + rewrite (IH rest _ _ _ _ H3) by lia.
      replace (idx - sl_max b <? e - (s + sl_max b)) with (idx <? e - s) by lia.
      destruct (idx <? e - s); [reflexivity|]. cbn [length].
      f_equal; [lia|]. lia.
Qed.

Lemma look_in_pre : forall pre s k e idx, chain s k pre e -> 0 <= idx < e - s ->
  exists j pos b, getscn_loop pre k idx = Some ((k + j)%nat, pos) /\
    nth_error pre j = Some b /\
    znth (sl_data b) pos = Some {| sc_index := s + idx; sc_ready := true; sc_list := Some (k + j)%nat |}.
Proof.
  induction pre as [|b pre IH]; intros s k e idx H Hi; simpl in H; [lia|].
  destruct H as (H1 & H2 & H3). cbn [getscn_loop].
  destruct (Z.ltb_spec idx (sl_max b)).
  - replace (idx <? sl_cnt b) with true by lia. exists O, idx, b. rewrite Nat.add_0_r.
    split; [reflexivity|]. split; [reflexivity|]. apply (bk_data _ _ _ H1). lia.
  - destruct (IH _ _ _ (idx - sl_max b) H3 ltac:(lia)) as (j & pos & c & E1 & E2 & E3).
    exists (S j), pos, c. rewrite E1. replace (k + S j)%nat with (S k + j)%nat by lia.
    split; [reflexivity|]. split; [exact E2|]. rewrite E3. do 2 f_equal. lia.
Qed.

Lemma nth_error_snoc : forall A (l : list A) x, nth_error (l ++ [x]) (length l) = Some x.
Proof. intros. rewrite nth_error_app2 by lia. now rewrite Nat.sub_diag. Qed.

Lemma list_set_snoc : forall A (l : list A) x y, list_set (l ++ [x]) (length l) y = l ++ [y].
Proof. induction l as [|z l IH]; intros; simpl; [reflexivity|]. now rewrite IH. Qed.

Lemma last_no_snoc : forall st pre b, ss_blocks st = pre ++ [b] -> last_no st = length pre.
Proof. intros st pre b H. unfold last_no. rewrite H, app_length. simpl. lia. Qed.

Lemma ptr_in : forall st n i, inv st n -> 0 <= i < n ->
  exists p, ptr_of st i = Some p /\
    scn_at st p = Some {| sc_index := i; sc_ready := true; sc_list := Some (fst p) |}.
Proof.
  intros st n i [(pre & b & s & E & C & B & Hne & -> & _)] Hi.
  unfold ptr_of, scn_at. rewrite E. rewrite (look_pre pre [b] 0 0 s i C) by lia.
  rewrite Z.sub_0_r. destruct (Z.ltb_spec i s).
  - destruct (look_in_pre pre 0 0 s i C ltac:(lia)) as (j & pos & c & E1 & E2 & E3).
    rewrite E1. eexists. split; [reflexivity|]. cbn [fst snd].
    rewrite nth_error_app1 by (apply nth_error_Some; simpl; congruence).
    simpl. rewrite E2, E3. reflexivity.
  - cbn [getscn_loop]. pose proof (bk_cnt _ _ _ B).
    replace (i - s <? sl_max b) with true by lia. replace (i - s <? sl_cnt b) with true by lia.
    eexists. split; [reflexivity|]. cbn [fst snd]. simpl Nat.add. rewrite nth_error_snoc.
    rewrite (bk_data _ _ _ B) by lia. do 2 f_equal. lia.
Qed.

Lemma ptr_out : forall st n i, inv st n -> n <= i -> ptr_of st i = None.
Proof.
  intros st n i [(pre & b & s & E & C & B & Hne & -> & _)] Hi.
  pose proof (chain_le _ _ _ _ C). pose proof (bk_cnt _ _ _ B).
  unfold ptr_of. rewrite E. rewrite (look_pre pre [b] 0 0 s i C) by lia.
  rewrite Z.sub_0_r. replace (i <? s) with false by lia. cbn [getscn_loop].
  destruct (i - s <? sl_max b); [|reflexivity]. now replace (i - s <? sl_cnt b) with false by lia.
Qed.

Lemma ptr_inj : forall st n i j p, inv st n -> 0 <= i < n -> 0 <= j < n ->
  ptr_of st i = Some p -> ptr_of st j = Some p -> i = j.
Proof.
  intros st n i j p I Hi Hj Ei Ej.
  destruct (ptr_in st n i I Hi) as (p1 & E1 & S1). destruct (ptr_in st n j I Hj) as (p2 & E2 & S2).
  assert (p1 = p) by congruence. assert (p2 = p) by congruence. subst. congruence.
Qed.

(* ---- elf_nextscn *)
Definition next_go (bl : list scnlist) (k : nat) (pos : Z) : outcome (option sptr) :=
  match nth_error bl k with
  | None => UB
  | Some b =>
      if pos + 1 <? sl_cnt b then Ok (Some (k, pos + 1))
      else if pos + 1 =? sl_max b then
        match nth_error bl (S k) with
        | None => Ok None
        | Some b' => if 0 <? sl_cnt b' then Ok (Some (S k, 0)) else UB
        end
      else Ok None
  end.

Definition shift (k : nat) (p : option sptr) : option sptr :=
  match p with Some (j, pos) => Some ((k + j)%nat, pos) | None => None end.

Lemma look_shift : forall bl k idx, getscn_loop bl k idx = shift k (getscn_loop bl 0 idx).
Proof.
  induction bl as [|b bl IH]; intros k idx; [reflexivity|]. cbn [getscn_loop].
  destruct (idx <? sl_max b); [destruct (idx <? sl_cnt b); [cbn; now rewrite Nat.add_0_r|reflexivity]|].
  rewrite IH, (IH 1%nat). destruct (getscn_loop bl 0 _) as [[j pos]|]; [|reflexivity].
  cbn. f_equal. f_equal. lia.
Qed.

Lemma nth_cons : forall A (x : A) l k, nth_error (x :: l) (S k) = nth_error l k.
Proof. reflexivity. Qed.

Lemma next_ok : forall pre b s k e idx j pos,
  chain s k pre e -> blk_ok b e (k + length pre) -> (pre <> [] -> 1 <= sl_cnt b) -> 0 <= idx ->
  getscn_loop (pre ++ [b]) 0 idx = Some (j, pos) ->
  next_go (pre ++ [b]) j pos = Ok (getscn_loop (pre ++ [b]) 0 (idx + 1)).
Proof.
  induction pre as [|c pre IH]; intros b s k e idx j pos C B Hne Hi E; simpl in C.
  - subst. cbn [app getscn_loop] in *. pose proof (bk_cnt _ _ _ B). pose proof (bk_max _ _ _ B).
    destruct (Z.ltb_spec idx (sl_max b)); [|discriminate].
    destruct (Z.ltb_spec idx (sl_cnt b)); [|discriminate]. injection E as <- <-.
    unfold next_go. cbn [nth_error].
    destruct (Z.ltb_spec (idx + 1) (sl_cnt b)).
    + replace (idx + 1 <? sl_max b) with true by lia. reflexivity.
    + destruct (Z.eqb_spec (idx + 1) (sl_max b)).
      * replace (idx + 1 <? sl_max b) with false by lia. reflexivity.
      * replace (idx + 1 <? sl_max b) with true by lia. reflexivity.
  - destruct C as (C1 & C2 & C3). specialize (Hne ltac:(discriminate)).
    pose proof (bk_cnt _ _ _ B). pose proof (bk_max _ _ _ B). pose proof (bk_max _ _ _ C1).
    cbn [app getscn_loop] in *.
    destruct (Z.ltb_spec idx (sl_max c)).
    + replace (idx <? sl_cnt c) with true in E by lia. injection E as <- <-.
      unfold next_go. cbn [nth_error].
      destruct (Z.ltb_spec (idx + 1) (sl_cnt c)).
      * replace (idx + 1 <? sl_max c) with true by lia. reflexivity.
      * replace (idx + 1 =? sl_max c) with true by lia. replace (idx + 1 <? sl_max c) with false by lia.
        replace (idx + 1 - sl_max c) with 0 by lia.
        destruct pre as [|d pre].
        -- cbn [app getscn_loop]. replace (0 <? sl_max b) with true by lia.
           replace (0 <? sl_cnt b) with true by lia. reflexivity.
        -- simpl in C3. destruct C3 as (D1 & D2 & _). pose proof (bk_max _ _ _ D1).
           cbn [app getscn_loop]. replace (0 <? sl_max d) with true by lia.
           replace (0 <? sl_cnt d) with true by lia. reflexivity.
    + rewrite look_shift in E. destruct (getscn_loop (pre ++ [b]) 0 (idx - sl_max c)) as [[j' pos']|] eqn:E'; [|discriminate].
      cbn [shift] in E. injection E as <- <-.
      specialize (IH b (s + sl_max c) (S k) e (idx - sl_max c) j' pos' C3).
      replace (S k + length pre)%nat with (k + length (c :: pre))%nat in IH by (simpl; lia).
      specialize (IH B (fun _ => Hne) ltac:(lia) E').
      replace (idx + 1 <? sl_max c) with false by lia.
      rewrite (look_shift _ 1%nat). replace (idx + 1 - sl_max c) with (idx - sl_max c + 1) by lia.
      unfold next_go in *. change (1 + j')%nat with (S j').
      rewrite (nth_cons _ c (pre ++ [b]) j'), (nth_cons _ c (pre ++ [b]) (S j')).
      destruct (nth_error (pre ++ [b]) j') as [d|]; [|discriminate].
      destruct (pos' + 1 <? sl_cnt d); [injection IH as <-; reflexivity|].
      destruct (pos' + 1 =? sl_max d); [|injection IH as <-; reflexivity].
      destruct (nth_error (pre ++ [b]) (S j')) as [d'|]; [|injection IH as <-; reflexivity].
      destruct (0 <? sl_cnt d'); [injection IH as <-; reflexivity|discriminate].
Qed.

Lemma nextscn_some : forall st n i p, inv st n -> 0 <= i < n -> ptr_of st i = Some p ->
  elf_nextscn st (Some p) = Ok (ptr_of st (i + 1)).
Proof.
  intros st n i p I Hi Ep. destruct (ptr_in st n i I Hi) as (p' & E' & S').
  assert (p' = p) by congruence. subst p'.
  unfold elf_nextscn. rewrite S'. cbn [sc_list].
  destruct I as [(pre & b & s & E & C & B & Hne & -> & _)].
  unfold ptr_of in *. rewrite E in *. destruct p as [k pos]. cbn [fst snd].
  exact (next_ok pre b 0 0 s i k pos C B Hne ltac:(lia) Ep).
Qed.

Lemma nextscn_none : forall st n, inv st n -> 1 <= n ->
  elf_nextscn st None = Ok (ptr_of st 1).
Proof.
  intros st n I Hn.
  assert (Hp : ptr_of st 0 = Some (0%nat, 0)).
  { destruct I as [(pre & b & s & E & C & B & Hne & -> & _)]. unfold ptr_of. rewrite E.
    destruct pre as [|c pre]; simpl in C |- *.
    - subst. pose proof (bk_max _ _ _ B). replace (0 <? sl_max b) with true by lia.
      now replace (0 <? sl_cnt b) with true by lia.
    - destruct C as (C1 & C2 & _). pose proof (bk_max _ _ _ C1).
      replace (0 <? sl_max c) with true by lia. now replace (0 <? sl_cnt c) with true by lia. }
  destruct I as [(pre & b & s & E & C & B & Hne & -> & _)].
  unfold elf_nextscn, ptr_of in *. rewrite E in *.
  exact (next_ok pre b 0 0 s 0 0 0 C B Hne ltac:(lia) Hp).
Qed.

Lemma getshdrnum_ok : forall st n, inv st n -> n < two64 -> elf_getshdrnum st = Ok n.
Proof.
  intros st n [(pre & b & s & E & C & B & Hne & -> & _)] Hn.
  unfold elf_getshdrnum. rewrite (last_no_snoc st pre b E), E, nth_error_snoc.
  pose proof (bk_cnt _ _ _ B). pose proof (chain_le _ _ _ _ C).
  destruct (Z.eqb_spec (sl_cnt b) 0) as [E0|E0]; cbn [negb orb].
  - destruct pre as [|c pre]; [|specialize (Hne ltac:(discriminate)); lia].
    cbn [length Nat.eqb negb]. simpl in C. subst. now rewrite E0.
  - rewrite (bk_data _ _ _ B) by lia. cbn [sc_index]. unfold u64. rewrite Z.mod_small by lia. f_equal. lia.
Qed.

(* ---- elf_newscn *)
Lemma set_scn_last : forall st pre b pos x, ss_blocks st = pre ++ [b] -> 0 <= pos < zlen (sl_data b) ->
  set_scn st (length pre, pos) x =
  Ok {| ss_blocks := pre ++ [{| sl_cnt := sl_cnt b; sl_max := sl_max b; sl_data := zset (sl_data b) pos x |}];
        ss_incr := ss_incr st |}.
Proof.
  intros st pre b pos x E Hp. unfold set_scn. cbn [fst snd]. rewrite E, nth_error_snoc.
  destruct (znth_in _ _ _ Hp) as [y ->]. unfold set_block. now rewrite E, list_set_snoc.
Qed.

(* A slot of the last block is used: index and header are filled in. *)
Lemma core_same : forall st pre b s, ss_blocks st = pre ++ [b] -> chain 0 0 pre s -> blk_ok b s (length pre) ->
  sl_cnt b < sl_max b -> (pre = [] -> 1 <= sl_cnt b) -> 1 <= sl_cnt b -> s + sl_cnt b < two64 ->
  exists st1, newscn_slot true st = Ok (st1, Some ((length pre, sl_cnt b), false)) /\
  exists st2, newscn_header true st1 (length pre, sl_cnt b) = Ok (Some st2) /\
  exists b', ss_blocks st2 = pre ++ [b'] /\ ss_incr st2 = ss_incr st /\ blk_ok b' s (length pre) /\
    sl_cnt b' = sl_cnt b + 1 /\ sl_max b' = sl_max b.
Proof.
  intros st pre b s E C B Hlt Hp0 Hc Hs. destruct B as [B1 B2 B3 B4].
  pose proof (chain_le _ _ _ _ C).
  unfold newscn_slot. rewrite (last_no_snoc st pre b E), E, nth_error_snoc.
  replace (sl_cnt b <? sl_max b) with true by lia.
  assert (U : u32 (sl_cnt b + 1) = sl_cnt b + 1) by (unfold u32; apply Z.mod_small; lia).
  rewrite U. replace (sl_cnt b + 1 =? 1) with false by lia. cbn [andb].
  replace (1 <? sl_cnt b + 1) with true by lia. cbn [negb].
  rewrite (B4 (sl_cnt b - 1)) by lia.
  destruct (znth_in _ (sl_data b) (sl_cnt b) ltac:(lia)) as [cur Ecur]. rewrite Ecur.
  cbn [sc_index]. unfold set_block. rewrite E, list_set_snoc.
  set (b1 := {| sl_cnt := sl_cnt b + 1; sl_max := sl_max b; sl_data := sl_data b |}).
  rewrite (set_scn_last _ pre b1) by (auto; cbn [b1 sl_data]; lia).
  cbn [obind]. eexists. split; [reflexivity|].
  unfold newscn_header. cbn [negb]. unfold scn_at. cbn [fst snd ss_blocks].
  rewrite nth_error_snoc. cbn [sl_data b1].
  rewrite znth_zset_eq by lia. cbn [sc_index].
  set (x1 := {| sc_index := _; sc_ready := _; sc_list := _ |}).
  set (b2 := {| sl_cnt := sl_cnt b + 1; sl_max := sl_max b; sl_data := zset (sl_data b) (sl_cnt b) x1 |}).
  set (st1 := {| ss_blocks := pre ++ [b2]; ss_incr := ss_incr st |}).
  cbn [sl_cnt sl_max b1 ss_incr]. fold b2. fold st1.
  rewrite (last_no_snoc st1 pre b2 eq_refl).
  rewrite (set_scn_last st1 pre b2) by (auto; cbn [b2 sl_data]; rewrite zlen_zset; lia).
  cbn [obind]. eexists. split; [reflexivity|]. cbn [ss_blocks ss_incr st1 b2 sl_cnt sl_max sl_data].
  eexists. split; [reflexivity|]. split; [reflexivity|]. split; [|split; reflexivity].
  constructor; cbn [sl_cnt sl_max sl_data]; rewrite ?zlen_zset; try lia.
  intros j Hj. destruct (Z.eq_dec j (sl_cnt b)) as [->|Hne].
  - rewrite znth_zset_eq by (rewrite zlen_zset; lia). cbn [x1 sc_index]. do 2 f_equal.
    unfold u64. rewrite Z.mod_small by lia. lia.
  - rewrite !znth_zset_neq by auto. apply B4. lia.
Qed.

(* A new block is allocated. *)
Lemma core_new : forall st pre b s, ss_blocks st = pre ++ [b] -> chain 0 0 pre s -> blk_ok b s (length pre) ->
  sl_cnt b = sl_max b -> 0 < ss_incr st < two31 -> s + sl_cnt b < two64 ->
  exists st1, newscn_slot true st = Ok (st1, Some ((S (length pre), 0), false)) /\
  exists st2, newscn_header true st1 (S (length pre), 0) = Ok (Some st2) /\
  exists b', ss_blocks st2 = (pre ++ [b]) ++ [b'] /\ ss_incr st2 = 2 * ss_incr st /\
    blk_ok b' (s + sl_cnt b) (length (pre ++ [b])) /\
    sl_cnt b' = 1 /\ sl_max b' = 2 * ss_incr st.
Proof.
  intros st pre b s E C B Hfull Hincr Hs. destruct B as [B1 B2 B3 B4].
  pose proof (chain_le _ _ _ _ C).
  unfold newscn_slot. rewrite (last_no_snoc st pre b E), E, nth_error_snoc.
  replace (sl_cnt b <? sl_max b) with false by lia.
  replace (0 <? ss_incr st) with true by lia. cbn [negb].
  assert (U : u32 (ss_incr st * 2) = 2 * ss_incr st) by (unfold u32; rewrite Z.mod_small; lia).
  rewrite U.
  assert (U' : u32 (sl_max b - 1) = sl_max b - 1) by (unfold u32; rewrite Z.mod_small; lia).
  rewrite U'. rewrite (B4 (sl_max b - 1)) by lia. cbn [sc_index].
  replace (2 * ss_incr st =? 0) with false by lia.
  eexists. split; [reflexivity|].
  unfold newscn_header. cbn [negb]. unfold scn_at. cbn [fst snd ss_blocks].
  assert (L : length (pre ++ [b]) = S (length pre)) by (rewrite app_length; simpl; lia).
  rewrite <- L, nth_error_snoc. cbn [sl_data]. rewrite znth_0. cbn [sc_index].
  set (x1 := {| sc_index := _; sc_ready := false; sc_list := None |}).
  set (b2 := {| sl_cnt := 1; sl_max := 2 * ss_incr st; sl_data := x1 :: repeat scn0 (Z.to_nat (2 * ss_incr st - 1)) |}).
  set (st1 := {| ss_blocks := (pre ++ [b]) ++ [b2]; ss_incr := 2 * ss_incr st |}).
  assert (Hl2 : zlen (sl_data b2) = 2 * ss_incr st).
  { cbn [b2 sl_data]. rewrite zlen_cons, zlen_repeat. lia. }
  rewrite (last_no_snoc st1 (pre ++ [b]) b2 eq_refl).
  rewrite (set_scn_last st1 (pre ++ [b]) b2) by (auto; lia).
  cbn [obind]. eexists. split; [reflexivity|]. cbn [ss_blocks ss_incr st1].
  eexists. split; [reflexivity|]. split; [reflexivity|].
  split; [|split; reflexivity].
  constructor; cbn [sl_cnt sl_max sl_data b2]; rewrite ?zlen_zset; try lia.
  - exact Hl2.
  - intros j Hj. replace j with 0 by lia. rewrite znth_zset_eq by (cbn [b2 sl_data] in Hl2; lia).
    do 2 f_equal. unfold u64. rewrite Z.mod_small by lia. lia.
Qed.

(* the zeroth section *)
Lemma core_first : forall st b, ss_blocks st = [b] -> blk_ok b 0 0 -> sl_cnt b = 0 ->
  znth (sl_data b) 0 = Some scn0 ->
  exists st1, newscn_slot true st = Ok (st1, Some ((0%nat, 0), true)) /\
  exists st2, newscn_header true st1 (0%nat, 0) = Ok (Some st2) /\
  exists b', ss_blocks st2 = [b'] /\ ss_incr st2 = ss_incr st /\ blk_ok b' 0 0 /\
    sl_cnt b' = 1 /\ sl_max b' = sl_max b.
Proof.
  intros st b E [B1 B2 B3 B4] Hc H0.
  unfold newscn_slot, last_no. rewrite E. cbn [length Nat.sub nth_error].
  rewrite Hc. replace (0 <? sl_max b) with true by lia.
  change (u32 (0 + 1)) with 1. cbn [Z.eqb Nat.eqb andb Pos.eqb].
  eexists. split; [reflexivity|].
  unfold newscn_header. cbn [negb]. unfold scn_at, set_scn, set_block, last_no. rewrite E.
  cbn [list_set ss_blocks fst snd nth_error sl_data]. rewrite H0. cbn [obind sc_index scn0 length Nat.sub list_set ss_incr sl_cnt sl_max].
  eexists. split; [reflexivity|]. cbn [ss_blocks ss_incr].
  eexists. split; [reflexivity|]. split; [reflexivity|]. split; [|split; reflexivity].
  constructor; cbn [sl_cnt sl_max sl_data]; rewrite ?zlen_zset; try lia.
  intros j Hj. replace j with 0 by lia. rewrite znth_zset_eq by lia. reflexivity.
Qed.

(* invariant with the unused part of the first block still zero *)
Definition fresh0 (st : scns) : Prop :=
  forall b, ss_blocks st = [b] -> sl_cnt b = 0 -> znth (sl_data b) 0 = Some scn0.

(* what an operation guarantees *)
Definition step_ok (st : scns) (n : Z) (st' : scns) (n' : Z) : Prop :=
  inv st' n' /\ fresh0 st' /\ n <= n' /\ forall i, 0 <= i < n -> ptr_of st' i = ptr_of st i.

Lemma newscn_nonfirst : forall st n, inv st n -> 1 <= n -> n < two31 ->
  exists st', (' (st, r) <- newscn_slot true st ;;
    match r with
    | None => Ok (st, None, Some ELF_E_NOMEM)
    | Some (p, _) =>
        h <- newscn_header true st p ;;
        match h with
        | None => Ok (st, Some p, Some ELF_E_NOMEM)
        | Some st => Ok (st, Some p, None)
        end
    end) = Ok (st', ptr_of st' n, None) /\
    (exists st1 p, newscn_slot true st = Ok (st1, Some (p, false))) /\
    step_ok st n st' (n + 1).
Proof.
  intros st n I Hn1 Hn. pose proof I as I0.
  destruct I as [(pre & b & s & E & C & B & Hne & -> & Hi)].
  pose proof (chain_le _ _ _ _ C) as Hs. pose proof B as B0. destruct B as [B1 B2 B3 B4].
  destruct (Z.eq_dec (sl_cnt b) (sl_max b)) as [Hfull|Hnf].
  - destruct (core_new st pre b s E C B0 Hfull) as (st1 & E1 & st2 & E2 & b' & E3 & E4 & B' & C' & M').
    { destruct Hi as [[_ Hi]|[Hp Hi]]; rewrite Hi; [lia|]. lia. }
    { lia. }
    exists st2. rewrite E1. cbn [obind]. rewrite E2. cbn [obind].
    assert (C2 : chain 0 0 (pre ++ [b]) (s + sl_cnt b)).
    { rewrite Hfull. apply chain_snoc; auto. }
    assert (P2 : ptr_of st2 (s + sl_cnt b) = Some (S (length pre), 0)).
    { unfold ptr_of. rewrite E3. rewrite (look_pre _ [b'] _ _ _ _ C2) by lia.
      replace (s + sl_cnt b <? s + sl_cnt b - 0) with false by lia. cbn [getscn_loop].
      replace (s + sl_cnt b - (s + sl_cnt b - 0)) with 0 by lia.
      pose proof (bk_max _ _ _ B'). replace (0 <? sl_max b') with true by lia. rewrite C'.
      replace (0 <? 1) with true by lia. rewrite app_length. cbn [length]. do 2 f_equal. lia. }
    split; [rewrite P2; reflexivity|]. split; [eauto|].
    split; [|split; [|split; [lia|]]].
    + constructor. exists (pre ++ [b]), b', (s + sl_cnt b). split; [exact E3|]. split; [exact C2|].
      split; [exact B'|]. split; [lia|]. split; [lia|]. right. split; [destruct pre; discriminate|lia].
    + intros c Ec. rewrite E3 in Ec. destruct pre as [|? []]; discriminate.
    + intros i Hii. unfold ptr_of. rewrite E3, E. 
      rewrite (look_pre (pre ++ [b]) [b'] 0 0 _ i C2) by lia.
      replace (i <? s + sl_cnt b - 0) with true by lia. reflexivity.
  - assert (Hc1 : 1 <= sl_cnt b).
    { destruct pre; [simpl in C; subst; lia|apply Hne; discriminate]. }
    destruct (core_same st pre b s E C B0) as (st1 & E1 & st2 & E2 & b' & E3 & E4 & B' & C' & M'); try lia.
    exists st2. rewrite E1. cbn [obind]. rewrite E2. cbn [obind].
    assert (P2 : ptr_of st2 (s + sl_cnt b) = Some (length pre, sl_cnt b)).
    { unfold ptr_of. rewrite E3. rewrite (look_pre _ [b'] _ _ _ _ C) by lia.
      replace (s + sl_cnt b <? s - 0) with false by lia. cbn [getscn_loop].
      replace (s + sl_cnt b - (s - 0)) with (sl_cnt b) by lia. rewrite M', C'.
      replace (sl_cnt b <? sl_max b) with true by lia. now replace (sl_cnt b <? sl_cnt b + 1) with true by lia. }
    split; [rewrite P2; reflexivity|]. split; [eauto|].
    split; [|split; [|split; [lia|]]].
    + constructor. exists pre, b', s. split; [exact E3|]. split; [exact C|].
      split; [exact B'|]. split; [lia|]. split; [lia|]. rewrite E4, M'. exact Hi.
    + intros c Ec Hc. rewrite E3 in Ec. destruct pre as [|d pre]; [|destruct pre; discriminate].
      injection Ec as <-. lia.
    + intros i Hii. unfold ptr_of. rewrite E3, E.
      rewrite (look_pre pre [b'] 0 0 _ i C), (look_pre pre [b] 0 0 _ i C) by lia.
      destruct (i <? s - 0) eqn:El; [reflexivity|]. cbn [getscn_loop]. rewrite M', C'.
      replace (i - (s - 0) <? sl_cnt b + 1) with true by lia.
      now replace (i - (s - 0) <? sl_cnt b) with true by lia.
Qed.

Lemma newscn_ok : forall st n, inv st n -> fresh0 st -> n < two31 ->
  exists st' n', elf_newscn true true true st = Ok (st', ptr_of st' (n' - 1), None) /\
    n' = (if n =? 0 then 2 else n + 1) /\ step_ok st n st' n'.
Proof.
  intros st n I F Hn. unfold elf_newscn.
  destruct (Z.eq_dec n 0) as [->|Hn0].
  - assert (I0 := I). destruct I as [(pre & b & s & E & C & B & Hne & Hz & Hi)].
    pose proof (chain_le _ _ _ _ C) as Hs. pose proof (bk_cnt _ _ _ B).
    destruct pre as [|c pre]; [|specialize (Hne ltac:(discriminate)); lia].
    simpl in C. subst s. cbn [app length] in *.
    destruct (core_first st b E B ltac:(lia) (F b E ltac:(lia))) as (st1 & E1 & st2 & E2 & b' & E3 & E4 & B' & C' & M').
    rewrite E1. cbn [obind]. rewrite E2. cbn [obind].
    assert (I2 : inv st2 1).
    { constructor. exists [], b', 0. cbn [app length chain]. split; [exact E3|]. split; [reflexivity|].
      split; [exact B'|]. split; [congruence|]. split; [lia|]. left. split; [reflexivity|].
      destruct Hi as [[_ Hi]|[Hi _]]; [lia|congruence]. }
    destruct (newscn_nonfirst st2 1 I2 ltac:(lia) ltac:(lia)) as (st3 & E5 & _ & (S1 & S2 & S3 & S4)).
    exists st3, 2. split; [exact E5|]. split; [reflexivity|].
    split; [exact S1|]. split; [exact S2|]. split; [lia|]. intros i Hii. lia.
  - pose proof I as I9; destruct I9 as [(pre & b & s & E & C & B & Hne & Hz & Hi)].
    assert (1 <= n). { pose proof (chain_le _ _ _ _ C). pose proof (bk_cnt _ _ _ B). lia. }
    destruct (newscn_nonfirst st n I ltac:(lia) Hn) as (st3 & E5 & (st1 & p & E6) & S).
    exists st3, (n + 1). rewrite E6 in *. cbn [obind] in *. replace (n =? 0) with false by lia.
    replace (n + 1 - 1) with n by lia. split; [exact E5|]. split; [reflexivity|exact S].
Qed.

Lemma getscn_ok : forall st n idx, inv st n -> fresh0 st -> 0 <= idx ->
  exists st' n', elf_getscn true st idx = Ok (st', ptr_of st' idx) /\
    n' = (if (idx =? 0) && (n =? 0) then 1 else n) /\ step_ok st n st' n'.
Proof.
  intros st n idx I F Hidx. unfold elf_getscn.
  assert (I0 := I). destruct I as [(pre & b & s & E & C & B & Hne & Hz & Hi)].
  pose proof (chain_le _ _ _ _ C) as Hs. pose proof (bk_cnt _ _ _ B). pose proof (bk_max _ _ _ B).
  destruct ((idx =? 0) && (n =? 0)) eqn:Et.
  - assert (idx = 0 /\ n = 0) as [-> ->] by lia.
    destruct pre as [|c pre]; [|specialize (Hne ltac:(discriminate)); lia].
    simpl in C. subst s. cbn [app length] in *. rewrite E.
    replace (sl_cnt b =? 0) with true by lia. replace (0 <? sl_max b) with true by lia.
    cbn [Z.eqb andb negb]. rewrite (F b E) by lia.
    unfold set_block, last_no. rewrite E. cbn [list_set length Nat.sub sc_index scn0].
    eexists _, 1. split; [reflexivity|]. split; [reflexivity|].
    assert (Hb : blk_ok {| sl_cnt := 1; sl_max := sl_max b;
       sl_data := zset (sl_data b) 0 {| sc_index := 0; sc_ready := true; sc_list := Some 0%nat |} |} 0 0).
    { destruct B as [B1 B2 B3 B4]. constructor; cbn [sl_cnt sl_max sl_data]; rewrite ?zlen_zset; try lia.
      intros j Hj. replace j with 0 by lia. rewrite znth_zset_eq by lia. reflexivity. }
    split; [|split; [|split; [lia|intros i Hii; lia]]].
    + constructor. eexists [], _, 0. cbn [app length chain ss_blocks ss_incr].
      split; [reflexivity|]. split; [reflexivity|]. split; [exact Hb|]. cbn [sl_cnt sl_max].
      split; [congruence|]. split; [lia|]. left. split; [reflexivity|].
      destruct Hi as [[_ Hi]|[Hi _]]; [lia|congruence].
    + intros c Ec Hc. cbn [ss_blocks] in Ec. injection Ec as <-. cbn [sl_cnt] in Hc. lia.
  - assert (Hstep : step_ok st n st n).
    { split; [exact I0|]. split; [exact F|]. split; [lia|auto]. }
    destruct (ss_blocks st) as [|c r] eqn:Eb; [destruct pre; discriminate|].
    assert (Hc : (idx =? 0) && (sl_cnt c =? 0) && (0 <? sl_max c) = false).
    { destruct (Z.eqb_spec idx 0) as [->|]; [|reflexivity]. cbn [andb].
      assert (sl_cnt c <> 0); [|lia].
      destruct pre as [|d pre]; simpl in E; injection E as -> ->.
      - simpl in C. subst s. lia.
      - simpl in C. destruct C as (C1 & C2 & _). pose proof (bk_max _ _ _ C1). lia. }
    rewrite Hc. exists st, n. split; [unfold ptr_of; now rewrite Eb|]. split; [reflexivity|exact Hstep].
Qed.

Lemma init_ok : forall cnt max, (cnt <= max)%nat -> (1 <= max)%nat -> Z.of_nat max < two32 ->
  inv (scns_init cnt max) (Z.of_nat cnt) /\ fresh0 (scns_init cnt max).
Proof.
  intros cnt max Hc Hm H32.
  assert (N : forall i, 0 <= i < Z.of_nat max -> znth (seq 0 max) i = Some (Z.to_nat i)).
  { intros i Hi. unfold znth, zlen. rewrite seq_length.
    replace ((0 <=? i) && (i <? Z.of_nat max)) with true by lia.
    rewrite (nth_error_nth' _ 0%nat) by (rewrite seq_length; lia). now rewrite seq_nth by lia. }
  split.
  - constructor. eexists [], _, 0. cbn [scns_init ss_blocks ss_incr app length chain].
    split; [reflexivity|]. split; [reflexivity|]. split.
    + constructor; cbn [sl_cnt sl_max sl_data]; try lia.
      * unfold zlen. now rewrite map_length, seq_length.
      * intros j Hj. rewrite znth_map, N by lia. cbn [option_map].
        replace (Z.to_nat j <? cnt)%nat with true.
        -- do 2 f_equal. lia.
        -- symmetry. apply Nat.ltb_lt. lia.
    + split; [congruence|]. cbn [sl_cnt]. split; [lia|]. left. auto.
  - intros b Eb Hb. cbn [scns_init ss_blocks] in Eb. injection Eb as <-. cbn [sl_cnt sl_data] in *.
    rewrite znth_map, N by lia. cbn [option_map]. replace cnt with 0%nat by lia. reflexivity.
Qed.

Lemma run_ok : forall ops st n, inv st n -> fresh0 st -> n + 2 * zlen ops < two31 ->
  exists st' n', scns_run st ops = Ok st' /\ step_ok st n st' n' /\ n' <= n + 2 * zlen ops.
Proof.
  induction ops as [|o ops IH]; intros st n I F Hn.
  - exists st, n. split; [reflexivity|]. split; [|rewrite zlen_nil; lia].
    split; [exact I|]. split; [exact F|]. split; [lia|auto].
  - rewrite zlen_cons in Hn. pose proof (zlen_nonneg _ ops).
    assert (S1 : exists st1 n1, scns_run st (o :: ops) = scns_run st1 ops /\ step_ok st n st1 n1 /\ n1 <= n + 2).
    { destruct o.
      - destruct (newscn_ok st n I F ltac:(lia)) as (st1 & n1 & E1 & Hn1 & S).
        exists st1, n1. cbn [scns_run]. rewrite E1. split; [reflexivity|]. split; [exact S|].
        destruct (Z.eqb_spec n 0); lia.
      - destruct (getscn_ok st n 0 I F ltac:(lia)) as (st1 & n1 & E1 & Hn1 & S).
        exists st1, n1. cbn [scns_run]. rewrite E1. split; [reflexivity|]. split; [exact S|].
        destruct (Z.eqb_spec n 0); subst n1; cbn [andb Z.eqb]; lia. }
    destruct S1 as (st1 & n1 & E1 & (I1 & F1 & L1 & P1) & Hle).
    destruct (IH st1 n1 I1 F1 ltac:(lia)) as (st2 & n2 & E2 & (I2 & F2 & L2 & P2) & Hle2).
    exists st2, n2. rewrite E1. split; [exact E2|]. rewrite zlen_cons. split; [|lia].
    split; [exact I2|]. split; [exact F2|]. split; [lia|].
    intros i Hi. rewrite P2 by lia. apply P1; lia.
Qed.
