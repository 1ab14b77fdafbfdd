(* dwarf_next_cfi on arbitrary bytes: memory safety, progress, and the bounds of what it returns. *)
From Verif Require Import Base LebModel LebProof DwModel CfiModel CfiProof CfiSafe NcfiModel.

(* the augmentation string at position a has bare augmentation data: its first character, behind an
   initial "eh", is one of L, P, R, S *)
Definition bare_letters (mem : bytes) (a : Z) : Prop :=
  exists x, In x [76; 80; 82; 83] /\
    (znth mem a = Some x \/ znth mem a = Some 101 /\ znth mem (a + 1) = Some 104 /\ znth mem (a + 2) = Some x).
(* what is returned lies in the entry, and the next offset is behind this one and in the section *)
Definition entry_within (last p : Z) (x : entry) : Prop :=
  match x with
  | ECie i => p < i_aug i <= i_adata i /\ 0 <= i_asize i /\ i_adata i + i_asize i = i_ins i /\ i_ins i <= i_end i /\ i_end i = last
  | EFde ptr s e => p < s < e /\ e = last /\ 0 <= ptr
  end.
Definition res_ok (dsz off : Z) (r : next_res) : Prop :=
  match r with
  | NDone => True
  | NBad e next => e <> 0 /\ match next with Some n => off < n <= dsz | None => True end
  | NEntry n x => off < n <= dsz /\ entry_within n off x
  end.

Lemma memchr0_safe : forall mem n p, 0 <= p -> p + Z.of_nat n <= zlen mem ->
  safe (memchr0 mem n p) (fun r => match r with Some q => p <= q < p + Z.of_nat n /\ znth mem q = Some 0 /\ (forall k, p <= k < q -> znth mem k <> Some 0) | None => True end).
Proof.
  intros mem. induction n as [|n IH]; intros p P L; cbn [memchr0]; [exact Logic.I|].
  unfold byte_at. destruct (znth_in _ mem p ltac:(lia)) as [x X]. rewrite X. cbn [obind]. destruct (x =? 0) eqn:E.
  - cbn. split; [lia|]. split; [rewrite X; f_equal; lia|]. intros k K. lia.
  - eapply safe_impl; [apply IH; lia|]. intros [q|] Q; [|exact Logic.I]. destruct Q as (Q1 & Q2 & Q3). split; [lia|]. split; [exact Q2|].
    intros k K. destruct (Z.eq_dec k p) as [->|N]; [rewrite X; intro Y; injection Y as ->; discriminate|]. apply Q3. lia.
Qed.

Section Safe.
Variable c : cfi.
Let mem := c_mem c.
Hypothesis B : bytes_ok mem.
Hypothesis D0 : c_dsize c < two63.
Hypothesis D : c_dsize c <= zlen mem.

Lemma cie_tail_safe : forall off next limit aug ap nul caf daf ra p, 0 <= off < aug -> aug <= ap <= nul -> nul < p <= limit -> limit <= c_dsize c ->
  next = limit -> (forall x, znth mem ap = Some x -> ~ In x [76; 80; 82; 83]) ->
  safe (cie_tail c next limit aug ap nul caf daf ra p) (res_ok (c_dsize c) off).
Proof using B D0 D.
  intros off next limit aug ap nul caf daf ra p H1 H2 H3 H4 -> NB. unfold cie_tail. fold mem.
  destruct (znth_in _ mem ap ltac:(lia)) as [z ZZ]. unfold byte_at at 1. rewrite ZZ. cbn [obind].
  destruct (z =? 122) eqn:E.
  - destruct (limit <=? p) eqn:E1; [cbn; unfold DWARF_E_INVALID_DWARF; lia|].
    destruct (get_uleb128_total mem p limit B ltac:(lia) ltac:(lia)) as (v & q & G & V & Q & _). rewrite G. cbn [obind]. unfold is_u64 in V.
    rewrite u64_small by lia. destruct (limit - q <? v) eqn:E2; cbn; unfold DWARF_E_INVALID_DWARF; lia.
  - replace (Z.to_nat (nul - ap + 1)) with (S (Z.to_nat (nul - ap))) by lia. cbn [aug_loop]. fold mem. unfold byte_at at 1. rewrite ZZ. cbn [obind].
    specialize (NB z ZZ). cbn [In] in NB.
    destruct (z =? 0); [cbn; rewrite u64_small by lia; lia|].
    replace ((z =? 76) || (z =? 82)) with false by lia. replace (z =? 80) with false by lia. replace (z =? 83) with false by lia.
    cbn. rewrite u64_small by lia. lia.
Qed.

Lemma cie_numbers_safe : forall off next limit version aug nul p, 0 <= off < aug -> aug <= nul -> nul < p -> limit <= c_dsize c -> p <= limit ->
  next = limit -> off < limit -> znth mem nul = Some 0 -> (forall k, aug <= k < nul -> znth mem k <> Some 0) -> ~ bare_letters mem aug ->
  safe (cie_numbers c next limit version aug nul p) (res_ok (c_dsize c) off).
Proof using B D0 D.
  intros off next limit version aug nul p H1 H2 H3 H4 H4' H5 H6 N0 NN NB. unfold cie_numbers. fold mem.
  destruct (znth_in _ mem aug ltac:(lia)) as [a0 A0]. unfold byte_at at 1. rewrite A0. cbn [obind].
  set (k := fun eh : bool => let ap := if eh then aug + 2 else aug in _).
  assert (G : forall (eh : bool), (eh = true -> aug + 2 <= nul) -> 
              (forall x, znth mem (if eh then aug + 2 else aug) = Some x -> ~ In x [76; 80; 82; 83]) -> safe (k eh) (res_ok (c_dsize c) off)).
  { intros eh EH NL. unfold k. clear k. 
    assert (AP : aug <= (if eh then aug + 2 else aug) <= nul) by (destruct eh; [specialize (EH eq_refl)|]; lia).
    assert (PP : nul < (if eh then p + addr_width c else p)) by (unfold addr_width; destruct eh, (c_c32 c); lia).
    revert AP PP NL. cbv zeta. generalize (if eh then aug + 2 else aug) as ap. generalize (if eh then p + addr_width c else p) as q.
    intros q ap AP PP NL.
    destruct (limit <=? q) eqn:E1; [cbn; unfold DWARF_E_INVALID_DWARF; lia|].
    destruct (get_uleb128_total mem q limit B ltac:(lia) ltac:(lia)) as (v & q1 & G & V & Q1 & _). rewrite G. cbn [obind].
    destruct (limit <=? q1) eqn:E2; [cbn; unfold DWARF_E_INVALID_DWARF; lia|].
    destruct (get_sleb128_total mem q1 limit B ltac:(lia) ltac:(lia)) as (w & q2 & G2 & Q2 & _). rewrite G2. cbn [obind].
    destruct (limit <=? q2) eqn:E3; [cbn; unfold DWARF_E_INVALID_DWARF; lia|].
    assert (R : exists u q3, (if 3 <=? version then get_uleb128 mem q2 limit else r <- byte_at mem q2 ;; Ok (r, q2 + 1)) = Ok (u, q3) /\ q2 < q3 <= limit).
    { destruct (3 <=? version).
      - destruct (get_uleb128_total mem q2 limit B ltac:(lia) ltac:(lia)) as (u & q3 & G3 & _ & Q3 & _). exists u, q3. split; [exact G3|lia].
      - destruct (znth_in _ mem q2 ltac:(lia)) as [u U]. unfold byte_at. rewrite U. exists u, (q2 + 1). split; [reflexivity|lia]. }
    destruct R as (u & q3 & -> & Q3). cbn [obind]. apply cie_tail_safe; try lia; try exact NL. }
  destruct (a0 =? 101) eqn:E.
  - assert (NU : aug <> nul) by (intros ->; rewrite N0 in A0; injection A0 as <-; discriminate).
    destruct (znth_in _ mem (aug + 1) ltac:(lia)) as [a1 A1]. unfold byte_at. rewrite A1. cbn [obind].
    destruct (a1 =? 104) eqn:E1.
    + apply G.
      * intros _. destruct (Z.eq_dec (aug + 1) nul) as [E2|N]; [|lia]. rewrite E2, N0 in A1. injection A1 as <-. discriminate.
      * intros x X I. apply NB. exists x. split; [exact I|]. right. split; [rewrite A0; f_equal; lia|]. split; [rewrite A1; f_equal; lia|exact X].
    + apply G; [discriminate|]. intros x X I. apply NB. exists x. split; [exact I|]. left. exact X.
  - cbn [obind]. apply G; [discriminate|]. intros x X I. apply NB. exists x. split; [exact I|]. left. exact X.
Qed.

Lemma cie_entry_safe : forall off next limit p, 0 <= off < p -> p < limit -> limit <= c_dsize c -> next = limit -> ~ bare_letters mem (p + 1) ->
  safe (cie_entry c next limit p) (res_ok (c_dsize c) off).
Proof using B D0 D.
  intros off next limit p H1 H2 H3 H4 NB. unfold cie_entry. fold mem.
  destruct (znth_in _ mem p ltac:(lia)) as [v V]. unfold byte_at at 1. rewrite V. cbn [obind].
  destruct (negb (v =? 1) && ((v <? 3) || (4 <? v))); [cbn; unfold DWARF_E_INVALID_DWARF; lia|].
  eapply safe_bind; [apply (memchr0_safe mem (Z.to_nat (limit - (p + 1))) (p + 1)); lia|]. intros [nul|] N; cbn beta iota in *.
  2:{ cbn; unfold DWARF_E_INVALID_DWARF; lia. }
  destruct N as (N1 & N2 & N3).
  destruct (4 <=? v).
  - destruct (limit - (nul + 1) <? 5) eqn:E; [cbn; unfold DWARF_E_INVALID_DWARF; lia|].
    destruct (znth_in _ mem (nul + 1) ltac:(lia)) as [s S1]. unfold byte_at at 1. rewrite S1. cbn [obind].
    destruct (negb (s =? addr_width c)); [cbn; unfold DWARF_E_VERSION; lia|].
    destruct (znth_in _ mem (nul + 1 + 1) ltac:(lia)) as [g S2]. unfold byte_at at 1. rewrite S2. cbn [obind].
    destruct (negb (g =? 0)); [cbn; unfold DWARF_E_VERSION; lia|].
    apply cie_numbers_safe; try lia; assumption.
  - apply cie_numbers_safe; try lia; assumption.
Qed.

Lemma id_entry_safe : forall off osz next limit p, (osz = 4 \/ osz = 8) -> 0 <= off < p -> p + osz < limit -> limit <= c_dsize c -> next = limit ->
  ~ bare_letters mem (p + osz + 1) -> safe (id_entry c osz next limit p) (res_ok (c_dsize c) off).
Proof using B D0 D.
  intros off osz next limit p OS H1 H2 H3 H4 NB. unfold id_entry. fold mem.
  assert (R : exists v, rd (c_fle c) mem p osz = Ok v /\ 0 <= v).
  { rewrite rd_in by lia. eexists. split; [reflexivity|].
    apply (fval_bound (c_fle c) (zsub mem p osz) (bytes_ok_part mem p osz B)). }
  destruct R as (v & -> & V0). cbn [obind].
  assert (CE : safe (cie_entry c next limit (p + osz)) (res_ok (c_dsize c) off)) by (apply cie_entry_safe; try lia; exact NB).
  destruct (c_eh c); cbn [negb].
  - replace ((osz =? 4) && false && (v =? two32 - 1)) with false by (rewrite andb_false_r; reflexivity).
    destruct (v =? 0); [exact CE|]. destruct ((p <? v) || (p <=? osz)) eqn:E; [cbn; unfold DWARF_E_INVALID_DWARF; lia|].
    destruct (p - v =? two64 - 1); [exact CE|]. cbn. lia.
  - set (id := if (osz =? 4) && true && (v =? two32 - 1) then two64 - 1 else v).
    assert (0 <= id) by (unfold id; destruct ((osz =? 4) && true && (v =? two32 - 1)); lia).
    destruct (id =? two64 - 1); [exact CE|]. cbn. lia.
Qed.

Lemma next_cfi_safe : forall off, 0 <= off -> off + 4 < two64 ->
  (forall a, a = off + 9 \/ a = off + 21 -> ~ bare_letters mem a) -> safe (next_cfi c off) (res_ok (c_dsize c) off).
Proof using B D0 D.
  intros off O1 O2 NB. unfold next_cfi. fold mem. rewrite u64_small by lia.
  destruct ((off =? two64 - 1) || (c_dsize c <=? off + 4)) eqn:E; [exact Logic.I|].
  rewrite s64_small by lia. rewrite rd_in by lia. cbn [obind].
  assert (V1 : 0 <= fval (c_fle c) (zsub mem off 4)) by (apply (fval_bound _ _ (bytes_ok_part mem off 4 B))).
  generalize dependent (fval (c_fle c) (zsub mem off 4)). intros len V1.
  destruct (len =? two32 - 1).
  - destruct (c_dsize c - (off + 4) <? 8) eqn:E1; [cbn; unfold DWARF_E_INVALID_DWARF; lia|].
    rewrite rd_in by lia. cbn [obind].
    assert (V2 : 0 <= fval (c_fle c) (zsub mem (off + 4) 8)) by (apply (fval_bound _ _ (bytes_ok_part mem (off + 4) 8 B))).
    generalize dependent (fval (c_fle c) (zsub mem (off + 4) 8)). intros len2 V2.
    destruct (len2 =? 0); [exact Logic.I|]. rewrite (u64_small (c_dsize c - (off + 4 + 8))) by lia.
    destruct ((c_dsize c - (off + 4 + 8) <? len2) || (len2 <? 9)) eqn:E2; [cbn; unfold DWARF_E_INVALID_DWARF; lia|].
    rewrite u64_small by lia. replace (off + 4 + 8) with (off + 12) by lia.
    apply id_entry_safe; try lia. apply NB. lia.
  - destruct (len =? 0); [exact Logic.I|]. rewrite (u64_small (c_dsize c - (off + 4))) by lia.
    destruct ((c_dsize c - (off + 4) <? len) || (len <? 5)) eqn:E2; [cbn; unfold DWARF_E_INVALID_DWARF; lia|].
    rewrite u64_small by lia. apply id_entry_safe; try lia. apply NB. lia.
Qed.
End Safe.

(* On every input the next offset is behind this one and in the section; nothing is assumed about the
   bytes or about what lies behind them. *)
Lemma cie_tail_next : forall c next limit aug ap nul caf daf ra p r, cie_tail c next limit aug ap nul caf daf ra p = Ok r ->
  match r with NDone => False | NBad _ n => n = Some next | NEntry n x => n = next /\ exists i, x = ECie i end.
Proof.
  intros c next limit aug ap nul caf daf ra p r H. unfold cie_tail in H.
  destruct (byte_at (c_mem c) ap) as [z| | |]; try discriminate. cbn [obind] in H. destruct (z =? 122).
  - destruct (limit <=? p); [injection H as <-; reflexivity|]. destruct (get_uleb128 (c_mem c) p limit) as [[v q]| | |]; try discriminate. cbn [obind] in H.
    destruct (u64 (limit - q) <? v); injection H as <-; [reflexivity|]. split; [reflexivity|eexists; reflexivity].
  - destruct (aug_loop c (Z.to_nat (nul - ap + 1)) ap p 0) as [[q fs]| | |]; try discriminate. injection H as <-. split; [reflexivity|eexists; reflexivity].
Qed.
Lemma cie_entry_next : forall c next limit p r, cie_entry c next limit p = Ok r ->
  match r with NDone => False | NBad _ n => n = Some next | NEntry n x => n = next /\ exists i, x = ECie i end.
Proof.
  intros c next limit p r H. unfold cie_entry in H.
  destruct (byte_at (c_mem c) p) as [v| | |]; try discriminate. cbn [obind] in H.
  destruct (negb (v =? 1) && ((v <? 3) || (4 <? v))); [injection H as <-; reflexivity|].
  destruct (memchr0 (c_mem c) (Z.to_nat (limit - (p + 1))) (p + 1)) as [[nul|]| | |]; try discriminate; cbn [obind] in H; [|injection H as <-; reflexivity].
  assert (G : forall q, cie_numbers c next limit v (p + 1) nul q = Ok r ->
    match r with NDone => False | NBad _ n => n = Some next | NEntry n x => n = next /\ exists i, x = ECie i end).
  { clear H. intros q H. unfold cie_numbers in H. destruct (byte_at (c_mem c) (p + 1)) as [a0| | |]; try discriminate. cbn [obind] in H.
    destruct (if a0 =? 101 then a1 <- byte_at (c_mem c) (p + 1 + 1) ;; Ok (a1 =? 104) else Ok false) as [eh| | |]; try discriminate. cbn [obind] in H. cbv zeta in H.
    revert H. generalize (if eh then p + 1 + 2 else p + 1). generalize (if eh then q + addr_width c else q). intros q0 ap H.
    destruct (limit <=? q0); [injection H as <-; reflexivity|]. destruct (get_uleb128 (c_mem c) q0 limit) as [[x1 q1]| | |]; try discriminate. cbn [obind] in H.
    destruct (limit <=? q1); [injection H as <-; reflexivity|]. destruct (get_sleb128 (c_mem c) q1 limit) as [[x2 q2]| | |]; try discriminate. cbn [obind] in H.
    destruct (limit <=? q2); [injection H as <-; reflexivity|].
    destruct (if 3 <=? v then get_uleb128 (c_mem c) q2 limit else r <- byte_at (c_mem c) q2;; Ok (r, q2 + 1)) as [[x3 q3]| | |]; try discriminate. cbn [obind] in H.
    apply cie_tail_next in H. exact H. }
  destruct (4 <=? v); [|apply (G _ H)]. destruct (limit - (nul + 1) <? 5); [injection H as <-; reflexivity|].
  destruct (byte_at (c_mem c) (nul + 1)) as [s| | |]; try discriminate. cbn [obind] in H.
  destruct (negb (s =? addr_width c)); [injection H as <-; reflexivity|].
  destruct (byte_at (c_mem c) (nul + 1 + 1)) as [g| | |]; try discriminate. cbn [obind] in H.
  destruct (negb (g =? 0)); [injection H as <-; reflexivity|]. apply (G _ H).
Qed.
Lemma id_entry_next : forall c osz next limit p r, id_entry c osz next limit p = Ok r ->
  match r with NDone => False | NBad _ n => n = Some next | NEntry n x => n = next end.
Proof.
  intros c osz next limit p r H. unfold id_entry in H.
  assert (G : cie_entry c next limit (p + osz) = Ok r -> match r with NDone => False | NBad _ n => n = Some next | NEntry n x => n = next end).
  { intros E. apply cie_entry_next in E. destruct r; auto. apply E. }
  destruct (rd (c_fle c) (c_mem c) p osz) as [v| | |]; try discriminate. cbn [obind] in H.
  destruct (c_eh c).
  - destruct ((if (osz =? 4) && negb true && (v =? two32 - 1) then two64 - 1 else v) =? 0); [exact (G H)|].
    destruct ((p <? (if (osz =? 4) && negb true && (v =? two32 - 1) then two64 - 1 else v)) || (p <=? osz)); [injection H as <-; reflexivity|].
    destruct (p - (if (osz =? 4) && negb true && (v =? two32 - 1) then two64 - 1 else v) =? two64 - 1); [exact (G H)|]. injection H as <-. reflexivity.
  - destruct ((if (osz =? 4) && negb false && (v =? two32 - 1) then two64 - 1 else v) =? two64 - 1); [exact (G H)|]. injection H as <-. reflexivity.
Qed.
Lemma next_cfi_progress : forall c off r, bytes_ok (c_mem c) -> c_dsize c < two63 -> 0 <= off < two64 -> next_cfi c off = Ok r ->
  match r with NDone => True | NBad _ None => True | NBad _ (Some n) => off < n <= c_dsize c | NEntry n _ => off < n <= c_dsize c end.
Proof.
  intros c off r B D O H. unfold next_cfi in H.
  destruct ((off =? two64 - 1) || (c_dsize c <=? u64 (off + 4))) eqn:E; [injection H as <-; exact Logic.I|].
  destruct (rd (c_fle c) (c_mem c) (s64 off) 4) as [len| | |] eqn:R; try discriminate. cbn [obind] in H.
  assert (P0 : 0 <= s64 off) by (unfold rd in R; destruct (0 <=? s64 off) eqn:X; [lia|discriminate]).
  assert (OS : s64 off = off).
  { destruct (Z_lt_le_dec off two63) as [L|L]; [apply s64_small; lia|]. exfalso. revert P0. clear - L O. unfold s64.
    replace (off + two63) with (off - two63 + 1 * two64) by lia. rewrite Z_mod_plus_full, Z.mod_small by lia. lia. }
  rewrite OS in *. pose proof (rd_bound _ _ _ 4 _ B ltac:(lia) R) as V.
  assert (off < two63) by (unfold s64 in OS; pose proof (Z.mod_pos_bound (off + two63) two64 ltac:(lia)); lia).
  rewrite u64_small in E by lia.
  destruct (len =? two32 - 1).
  - destruct (c_dsize c - (off + 4) <? 8) eqn:E1; [injection H as <-; exact Logic.I|].
    destruct (rd (c_fle c) (c_mem c) (off + 4) 8) as [len2| | |] eqn:R2; try discriminate. cbn [obind] in H.
    pose proof (rd_bound _ _ _ 8 _ B ltac:(lia) R2) as V2.
    destruct (len2 =? 0); [injection H as <-; exact Logic.I|]. rewrite (u64_small (c_dsize c - (off + 4 + 8))) in H by lia.
    destruct ((c_dsize c - (off + 4 + 8) <? len2) || (len2 <? 9)) eqn:E2; [injection H as <-; exact Logic.I|].
    rewrite u64_small in H by lia. apply id_entry_next in H. destruct r as [|e n|n x]; [exact Logic.I|subst n; lia|subst n; lia].
  - destruct (len =? 0); [injection H as <-; exact Logic.I|]. rewrite (u64_small (c_dsize c - (off + 4))) in H by lia.
    destruct ((c_dsize c - (off + 4) <? len) || (len <? 5)) eqn:E2; [injection H as <-; exact Logic.I|].
    rewrite u64_small in H by lia. apply id_entry_next in H. destruct r as [|e n|n x]; [exact Logic.I|subst n; lia|subst n; lia].
Qed.

