(* C41: the elf_flag functions. *)
From Verif Require Import Base ElfErr FlagModel.

(* The places that have flags, and the flags at a place. *)
Inductive place := PElf | PEhdr | PPhdr | PScn (i : nat) | PShdr (i : nat).
Definition place_of (t : target) : option place :=
  match t with
  | TNull => None | TElf => Some PElf | TEhdr => Some PEhdr | TPhdr => Some PPhdr
  | TScn i => Some (PScn i) | TShdr i => Some (PShdr i)
  | TData i => Some (PScn i)        (* the data of a section shares the section's flags *)
  end.
Definition word_at (s : fstate) (p : place) : option Z :=
  match p with
  | PElf => Some (fs_elf s) | PEhdr => Some (fs_ehdr s) | PPhdr => Some (fs_phdr s)
  | PScn i => match nth_error (fs_scn s) i with Some (a, _) => Some a | None => None end
  | PShdr i => match nth_error (fs_scn s) i with Some (_, b) => Some b | None => None end
  end.
(* The flags a user may change: bit 0 (dirty) everywhere, and bits 2 (layout) and
   3 (permissive) of the file. *)
Definition changeable (p : place) (n : Z) : bool :=
  (n =? 0) || match p with PElf => (n =? 2) || (n =? 3) | _ => false end.

Definition words_ok (s : fstate) : Prop := forall p w, word_at s p = Some w -> is_u32 w.

Lemma bit_mask1 : forall n, 0 <= n -> Z.testbit 1 n = (n =? 0).
Proof. intros n H. change 1 with (2 ^ 0). rewrite Z.pow2_bits_eqb by lia. lia. Qed.
Lemma bit_mask13 : forall n, 0 <= n -> Z.testbit 13 n = ((n =? 0) || ((n =? 2) || (n =? 3))).
Proof.
  intros n H. change 13 with (Z.lor (2 ^ 0) (Z.lor (2 ^ 2) (2 ^ 3))). rewrite !Z.lor_spec, !Z.pow2_bits_eqb by lia.
  lia.
Qed.
Lemma u32_bits : forall w n, is_u32 w -> 32 <= n -> Z.testbit w n = false.
Proof.
  intros w n [A B] N. rewrite <- (Z.mod_small w (2 ^ 32)) by (change (2 ^ 32) with two32; lia).
  apply Z.mod_pow2_bits_high. lia.
Qed.

Lemma flag_word_bits : forall cmd flags mask w w', is_u32 w -> flag_word cmd flags mask w = Some w' ->
  (cmd = 4 \/ cmd = 5) /\
  forall n, 0 <= n -> Z.testbit w' n =
    (if Z.testbit mask n && Z.testbit flags n && (n <? 32) || ((cmd =? 5) && Z.testbit mask n && Z.testbit flags n)
     then cmd =? 5 else Z.testbit w n).
Proof.
  intros cmd flags mask w w' W. unfold flag_word. change ELF_C_SET with 5. change ELF_C_CLR with 4.
  destruct (cmd =? 5) eqn:E.
  - intros [= <-]. split; [lia|]. intros n N. rewrite Z.lor_spec, Z.land_spec. cbn [andb].
    destruct (Z.testbit flags n), (Z.testbit mask n), (n <? 32); cbn [andb orb]; rewrite ?orb_true_r, ?orb_false_r; reflexivity.
  - destruct (cmd =? 4) eqn:E4; [|discriminate].
    remember (Z.lxor (two32 - 1) (Z.land flags mask)) as nm. intros [= <-]. subst nm. split; [lia|]. intros n N.
    rewrite Z.land_spec, Z.lxor_spec, Z.land_spec. cbn [andb]. rewrite orb_false_r.
    change (two32 - 1) with (Z.ones 32). destruct (n <? 32) eqn:L.
    + rewrite Z.ones_spec_low by lia. destruct (Z.testbit flags n), (Z.testbit mask n); cbn; rewrite ?andb_true_r, ?andb_false_r; reflexivity.
    + rewrite Z.ones_spec_high by lia. rewrite andb_false_r. rewrite (u32_bits w n W) by lia. reflexivity.
Qed.

Lemma nth_upd_same : forall (l : list (Z * Z)) i p, (i < length l)%nat -> nth_error (upd_scn l i p) i = Some p.
Proof.
  intros l i p H. unfold upd_scn. rewrite nth_error_app2 by (rewrite firstn_length; lia).
  rewrite firstn_length. replace (i - Nat.min i (length l))%nat with O by lia. reflexivity.
Qed.
Lemma nth_upd_other : forall (l : list (Z * Z)) i j p, (i < length l)%nat -> i <> j -> nth_error (upd_scn l i p) j = nth_error l j.
Proof.
  intros l i j p H N. unfold upd_scn. destruct (Nat.lt_ge_cases j i).
  - rewrite nth_error_app1 by (rewrite firstn_length; lia). rewrite <- (firstn_skipn i l) at 2.
    rewrite nth_error_app1 by (rewrite firstn_length; lia). reflexivity.
  - rewrite nth_error_app2 by (rewrite firstn_length; lia). rewrite firstn_length.
    replace (j - Nat.min i (length l))%nat with (S (j - S i))%nat by lia. cbn [nth_error].
    rewrite <- (firstn_skipn (S i) l) at 2. rewrite nth_error_app2 by (rewrite firstn_length; lia).
    rewrite firstn_length. f_equal. lia.
Qed.

(* The effect of one call.  t names place p, which has the flags w. *)
Theorem C41_flag_call :
  forall t cmd flags s s' r e p w,
    is_u32 flags -> words_ok s -> place_of t = Some p -> word_at s p = Some w ->
    elf_flag t cmd flags s = (s', r, e) ->
    (fs_kind s = 3 /\ (cmd = 4 \/ cmd = 5) /\ e = None /\
       word_at s' p = Some r /\                                      (* the result is the new flags *)
       (forall n, 0 <= n -> Z.testbit r n =
          if changeable p n && Z.testbit flags n then cmd =? 5 else Z.testbit w n) /\
       (forall q, q <> p -> word_at s' q = word_at s q) /\ fs_kind s' = fs_kind s) \/
    (s' = s /\ r = 0 /\ (fs_kind s <> 3 /\ e = Some ELF_E_INVALID_HANDLE \/
                         cmd <> 4 /\ cmd <> 5 /\ e = Some ELF_E_INVALID_COMMAND)).
Proof.
  intros t cmd flags s s' r e p w FU WO PT WA E.
  assert (G : forall mask put, (forall n, 0 <= n -> Z.testbit mask n = changeable p n) ->
    (forall w', word_at (put w') p = Some w' /\ (forall q, q <> p -> word_at (put w') q = word_at s q) /\ fs_kind (put w') = fs_kind s) ->
    (if negb (fs_kind s =? ELF_K_ELF) then (s, 0, Some ELF_E_INVALID_HANDLE)
    else match flag_word cmd flags mask w with
         | Some w' => (put w', w', None)
         | None => (s, 0, Some ELF_E_INVALID_COMMAND)
         end) = (s', r, e) ->
    (fs_kind s = 3 /\ (cmd = 4 \/ cmd = 5) /\ e = None /\ word_at s' p = Some r /\
       (forall n, 0 <= n -> Z.testbit r n = if changeable p n && Z.testbit flags n then cmd =? 5 else Z.testbit w n) /\
       (forall q, q <> p -> word_at s' q = word_at s q) /\ fs_kind s' = fs_kind s) \/
    (s' = s /\ r = 0 /\ (fs_kind s <> 3 /\ e = Some ELF_E_INVALID_HANDLE \/
                         cmd <> 4 /\ cmd <> 5 /\ e = Some ELF_E_INVALID_COMMAND))).
  { intros mask put M P. change ELF_K_ELF with 3. destruct (fs_kind s =? 3) eqn:K; cbn [negb].
    2:{ intros [= <- <- <-]. right. split; [reflexivity|]. split; [reflexivity|]. left. split; [lia|reflexivity]. }
    destruct (flag_word cmd flags mask w) as [w'|] eqn:FW.
    - intros [= <- <- <-]. left. destruct (flag_word_bits cmd flags mask w w' (WO p w WA) FW) as [C B].
      destruct (P w') as (P1 & P2 & P3). split; [lia|]. split; [exact C|]. split; [reflexivity|]. split; [exact P1|].
      split; [|split; [exact P2|exact P3]]. intros n N. rewrite (B n N), (M n N).
      destruct (Z.testbit flags n) eqn:T; [|rewrite !andb_false_r; reflexivity].
      destruct (Z_lt_le_dec n 32); [|rewrite (u32_bits flags n FU) in T by lia; discriminate].
      replace (n <? 32) with true by lia. rewrite !andb_true_r.
      destruct (changeable p n), (cmd =? 5); reflexivity.
    - intros [= <- <- <-]. right. split; [reflexivity|]. split; [reflexivity|]. right.
      unfold flag_word in FW. change ELF_C_SET with 5 in FW. change ELF_C_CLR with 4 in FW.
      destruct (cmd =? 5) eqn:C5; [discriminate|]. destruct (cmd =? 4) eqn:C4; [discriminate|].
      split; [lia|]. split; [lia|reflexivity]. }
  destruct t as [| | | |i|i|i]; try discriminate PT; injection PT as <-; cbn [elf_flag] in E; cbn [word_at] in WA.
  - injection WA as <-. apply G in E; [exact E| |].
    + intros n N. change (Z.lor ELF_F_DIRTY (Z.lor ELF_F_LAYOUT ELF_F_PERMISSIVE)) with 13. rewrite bit_mask13 by lia. reflexivity.
    + intros w'. split; [reflexivity|]. split; [|reflexivity]. intros [] Q; try reflexivity. congruence.
  - injection WA as <-. apply G in E; [exact E| |].
    + intros n N. change ELF_F_DIRTY with 1. rewrite bit_mask1 by lia. unfold changeable. rewrite orb_false_r. reflexivity.
    + intros w'. split; [reflexivity|]. split; [|reflexivity]. intros [] Q; try reflexivity. congruence.
  - injection WA as <-. apply G in E; [exact E| |].
    + intros n N. change ELF_F_DIRTY with 1. rewrite bit_mask1 by lia. unfold changeable. rewrite orb_false_r. reflexivity.
    + intros w'. split; [reflexivity|]. split; [|reflexivity]. intros [] Q; try reflexivity. congruence.
  - destruct (nth_error (fs_scn s) i) as [[a b]|] eqn:N; [|discriminate]. injection WA as <-.
    assert (L : (i < length (fs_scn s))%nat) by (apply nth_error_Some; congruence).
    apply G in E; [exact E| |].
    + intros n Hn. change ELF_F_DIRTY with 1. rewrite bit_mask1 by lia. unfold changeable. rewrite orb_false_r. reflexivity.
    + intros w'. cbn [word_at fs_scn]. rewrite nth_upd_same by exact L. split; [reflexivity|]. split; [|reflexivity].
      intros [ | | |j|j] Q; try reflexivity; cbn [word_at fs_scn]; destruct (Nat.eq_dec i j) as [<-|NE];
        try congruence; try (rewrite nth_upd_other by assumption; reflexivity).
      rewrite nth_upd_same, N by exact L. reflexivity.
  - destruct (nth_error (fs_scn s) i) as [[a b]|] eqn:N; [|discriminate]. injection WA as <-.
    assert (L : (i < length (fs_scn s))%nat) by (apply nth_error_Some; congruence).
    apply G in E; [exact E| |].
    + intros n Hn. change ELF_F_DIRTY with 1. rewrite bit_mask1 by lia. unfold changeable. rewrite orb_false_r. reflexivity.
    + intros w'. cbn [word_at fs_scn]. rewrite nth_upd_same by exact L. split; [reflexivity|]. split; [|reflexivity].
      intros [ | | |j|j] Q; try reflexivity; cbn [word_at fs_scn]; destruct (Nat.eq_dec i j) as [<-|NE];
        try congruence; try (rewrite nth_upd_other by assumption; reflexivity).
      rewrite nth_upd_same, N by exact L. reflexivity.
  - destruct (nth_error (fs_scn s) i) as [[a b]|] eqn:N; [|discriminate]. injection WA as <-.
    assert (L : (i < length (fs_scn s))%nat) by (apply nth_error_Some; congruence).
    apply G in E; [exact E| |].
    + intros n Hn. change ELF_F_DIRTY with 1. rewrite bit_mask1 by lia. unfold changeable. rewrite orb_false_r. reflexivity.
    + intros w'. cbn [word_at fs_scn]. rewrite nth_upd_same by exact L. split; [reflexivity|]. split; [|reflexivity].
      intros [ | | |j|j] Q; try reflexivity; cbn [word_at fs_scn]; destruct (Nat.eq_dec i j) as [<-|NE];
        try congruence; try (rewrite nth_upd_other by assumption; reflexivity).
      rewrite nth_upd_same, N by exact L. reflexivity.
Qed.
Print Assumptions C41_flag_call.

Definition st0 := FState 3 64 0 1 [(256, 0); (257, 1)].
Example C41_flag_call_nonvacuous :
  words_ok st0 /\
  elf_flag TElf 5 4294967295 st0 = (FState 3 77 0 1 [(256, 0); (257, 1)], 77, None) /\
  elf_flag (TData 1) 4 1 st0 = (FState 3 64 0 1 [(256, 0); (256, 1)], 256, None) /\
  elf_flag (TShdr 0) 7 1 st0 = (st0, 0, Some ELF_E_INVALID_COMMAND).
Proof.
  split; [|repeat split; vm_compute; reflexivity].
  intros p w. destruct p as [| | |[|[|i]]|[|[|i]]]; cbn; try (intros [= <-]; unfold is_u32; lia); destruct i; discriminate.
Qed.

(* Histories: a flag of a place is as the last SET or CLR call for that place left
   it; flags a user may not change keep their value. *)
Definition call := (target * Z * Z)%type.
Fixpoint runf (l : list call) (s : fstate) : fstate :=
  match l with [] => s | (t, cmd, fl) :: r => runf r (fst (fst (elf_flag t cmd fl s))) end.
Definition place_eqb (p q : place) : bool :=
  match p, q with
  | PElf, PElf | PEhdr, PEhdr | PPhdr, PPhdr => true
  | PScn i, PScn j | PShdr i, PShdr j => (i =? j)%nat
  | _, _ => false
  end.
(* The last command in the list for bit n of place p, if any. *)
Fixpoint last_cmd (l : list call) (p : place) (n : Z) : option Z :=
  match l with
  | [] => None
  | (t, cmd, fl) :: r =>
    match last_cmd r p n with
    | Some c => Some c
    | None => match place_of t with
              | Some q => if place_eqb p q && Z.testbit fl n && ((cmd =? 4) || (cmd =? 5)) then Some cmd else None
              | None => None
              end
    end
  end.
Lemma place_eqb_eq : forall p q, place_eqb p q = true <-> p = q.
Proof.
  intros [] []; cbn; try (split; congruence); rewrite Nat.eqb_eq; split; congruence.
Qed.
Lemma word_bound : forall w, (forall n, 32 <= n -> Z.testbit w n = false) -> 0 <= w -> is_u32 w.
Proof.
  intros w H N. split; [exact N|]. assert (w = w mod 2 ^ 32).
  { apply Z.bits_inj'. intros n Hn. destruct (Z_lt_le_dec n 32).
    - rewrite Z.mod_pow2_bits_low by lia. reflexivity.
    - rewrite Z.mod_pow2_bits_high by lia. apply H. lia. }
  rewrite H0. apply Z.mod_pos_bound. reflexivity.
Qed.

Lemma flag_step : forall t cmd fl s, is_u32 fl -> words_ok s -> fs_kind s = 3 ->
  let s' := fst (fst (elf_flag t cmd fl s)) in
  fs_kind s' = 3 /\
  (forall p, match word_at s p, word_at s' p with
             | Some w, Some w' => forall n, 0 <= n -> Z.testbit w' n =
                  match place_of t with
                  | Some q => if place_eqb p q && Z.testbit fl n && ((cmd =? 4) || (cmd =? 5)) && changeable p n
                              then cmd =? 5 else Z.testbit w n
                  | None => Z.testbit w n
                  end
             | None, None => True
             | _, _ => False
             end) /\ words_ok s'.
Proof.
  intros t cmd fl s FU WO K. destruct (elf_flag t cmd fl s) as [[s' r] e] eqn:E. cbn [fst].
  assert (SAME : s' = s -> place_of t = None \/ (exists q, place_of t = Some q /\ word_at s q = None) \/ (cmd <> 4 /\ cmd <> 5) ->
    fs_kind s' = 3 /\
  (forall p, match word_at s p, word_at s' p with
             | Some w, Some w' => forall n, 0 <= n -> Z.testbit w' n =
                  match place_of t with
                  | Some q => if place_eqb p q && Z.testbit fl n && ((cmd =? 4) || (cmd =? 5)) && changeable p n
                              then cmd =? 5 else Z.testbit w n
                  | None => Z.testbit w n
                  end
             | None, None => True
             | _, _ => False
             end) /\ words_ok s').
  { intros -> H. split; [exact K|]. split; [|exact WO]. intros p. destruct (word_at s p) as [w|] eqn:W; [|exact I].
    intros n N. destruct H as [-> |[(q & -> & Q)|[C4 C5]]]; [reflexivity| |].
    - destruct (place_eqb p q) eqn:PE; [|reflexivity]. apply place_eqb_eq in PE. congruence.
    - replace ((cmd =? 4) || (cmd =? 5)) with false by lia. destruct (place_of t) as [q|]; [|reflexivity]. rewrite andb_false_r. reflexivity. }
  destruct (place_of t) as [p|] eqn:PT.
  2:{ apply SAME; [|left; reflexivity]. destruct t; try discriminate. cbn in E. congruence. }
  destruct (word_at s p) as [w|] eqn:W.
  2:{ apply SAME; [|right; left; exists p; auto].
      destruct t as [| | | |i|i|i]; try discriminate PT; injection PT as <-; try discriminate W; cbn [elf_flag] in E; cbn [word_at] in W;
        destruct (nth_error (fs_scn s) i) as [[]|]; try discriminate; congruence. }
  destruct (C41_flag_call t cmd fl s s' r e p w FU WO PT W E) as [(_ & C & _ & R & B & FR & K')|(-> & _ & [[X _]|(C4 & C5 & _)])].
  - split; [congruence|].
    assert (RB : is_u32 r).
    { pose proof (WO p w W) as WU. apply word_bound.
      - intros n N. rewrite (B n ltac:(lia)), (u32_bits fl n FU), andb_false_r by lia. apply u32_bits; assumption.
      - apply Z.bits_iff_nonneg_ex. exists 31. intros n N.
        rewrite (B n ltac:(lia)), (u32_bits fl n FU), andb_false_r by lia. apply u32_bits; [assumption|lia]. }
    split.
    + intros q. destruct (place_eqb q p) eqn:PE.
      * apply place_eqb_eq in PE. subst q. rewrite W, R. intros n N. rewrite (B n N).
        replace ((cmd =? 4) || (cmd =? 5)) with true by lia. rewrite andb_true_r. cbn [andb].
        rewrite (andb_comm (Z.testbit fl n)). reflexivity.
      * assert (q <> p) by (intros ->; rewrite (proj2 (place_eqb_eq p p) eq_refl) in PE; discriminate).
        rewrite (FR q H). destruct (word_at s q); [|exact I]. intros; reflexivity.
    + intros q v Q. destruct (place_eqb q p) eqn:PE.
      * apply place_eqb_eq in PE. subst q. congruence.
      * assert (q <> p) by (intros ->; rewrite (proj2 (place_eqb_eq p p) eq_refl) in PE; discriminate).
        rewrite (FR q H) in Q. exact (WO q v Q).
  - congruence.
  - apply SAME; auto.
Qed.

Theorem C41_flag_history :
  forall l s, Forall (fun c : call => is_u32 (snd c)) l -> words_ok s -> fs_kind s = 3 ->
    forall p, match word_at s p, word_at (runf l s) p with
              | Some w, Some w' => forall n, 0 <= n -> Z.testbit w' n =
                  (if changeable p n then match last_cmd l p n with Some c => c =? 5 | None => Z.testbit w n end
                   else Z.testbit w n)
              | None, None => True
              | _, _ => False
              end.
Proof.
  induction l as [|[[t cmd] fl] l IH]; intros s FA WO K p; cbn [runf last_cmd].
  - destruct (word_at s p); [|exact I]. intros n N. destruct (changeable p n); reflexivity.
  - pose proof (Forall_inv FA) as FU. cbn [snd] in FU. destruct (flag_step t cmd fl s FU WO K) as (K' & B & WO').
    set (s' := fst (fst (elf_flag t cmd fl s))) in *. specialize (IH s' (Forall_inv_tail FA) WO' K' p). specialize (B p).
    destruct (word_at s p) as [w|], (word_at s' p) as [w1|]; try contradiction; [|exact IH].
    destruct (word_at (runf l s') p) as [w2|]; [|contradiction]. intros n N. rewrite (IH n N), (B n N).
    destruct (changeable p n); [|destruct (place_of t); rewrite ?andb_false_r; reflexivity].
    destruct (last_cmd l p n); [reflexivity|]. destruct (place_of t) as [q|]; [|reflexivity]. rewrite andb_true_r.
    destruct (place_eqb p q && Z.testbit fl n && ((cmd =? 4) || (cmd =? 5))); reflexivity.
Qed.
Print Assumptions C41_flag_history.

Example C41_flag_history_nonvacuous :
  let l := [(TElf, 5, 5); (TScn 0, 5, 1); (TElf, 4, 1); (TData 0, 4, 1); (TElf, 9, 8)] in
  Forall (fun c : call => is_u32 (snd c)) l /\ runf l st0 = FState 3 68 0 1 [(256, 0); (257, 1)] /\
  last_cmd l PElf 2 = Some 5 /\ last_cmd l PElf 0 = Some 4 /\ last_cmd l PElf 3 = None /\ last_cmd l (PScn 0) 0 = Some 4.
Proof.
  cbv zeta. split; [repeat constructor; unfold is_u32; cbn; lia|]. repeat split; vm_compute; reflexivity.
Qed.
