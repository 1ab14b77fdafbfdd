(* C23: records read and stored through gelf_getX and gelf_update_X. *)
From Coq Require Import String.
From Verif Require Import Base ElfErr GelfModel GelfSpec GelfProof.
Local Open Scope Z_scope.

Lemma get_ext : forall le c64 k a b base, zlen b = zlen a -> (forall i, base <= i < base + size c64 k -> znth b i = znth a i) -> get_at le c64 k b base = get_at le c64 k a base.
Proof.
  intros le c64 k a b base L E; unfold get_at; rewrite L; destruct ((0 <=? base) && (base + size c64 k <=? zlen a)) eqn:C; [|reflexivity].
  cbv zeta; assert (X : rd_rec le (lay c64 k) b base = rd_rec le (lay c64 k) a base); [|rewrite X; reflexivity].
  unfold rd_rec; apply map_ext_in; intros f F.
  destruct (wf_in _ _ f (wf_lay c64 k) F) as (O & W & S1).
  unfold rd_fld; cbv zeta; replace (zsub b (base + g_off f) (g_w f)) with (zsub a (base + g_off f) (g_w f)); [reflexivity|].
  apply zlist_ext; [rewrite !zsub_length by lia; reflexivity|]; rewrite zsub_length by lia; intros i II; rewrite !znth_zsub by lia; symmetry; apply E; lia.
Qed.
Lemma store_cases : forall le c64 k buf base v, (exists b, put_at le c64 k buf base v = Ok b /\ store_at le c64 k buf base v = U (Ok tt) b true) \/ (put_at le c64 k buf base v = UB /\ store_at le c64 k buf base v = U UB buf true).
Proof. intros; unfold store_at, put_at; destruct (_ && _); eauto. Qed.
Lemma by_move : forall k, by_number k -> k <> Kmove.
Proof. intros k B ->; unfold by_number in B; cbn in B; intuition discriminate. Qed.

(* a successful update went through all the checks *)
Lemma update_ok : forall le c64 k ty buf d ndx v, by_number k -> r_ret (gelf_update le c64 k ty buf d ndx v) = Ok tt ->
  ty = ktype k /\ (c64 = false -> too_large k v = false) /\ gelf_update le c64 k ty buf d ndx v = store_at le c64 k buf (ndx * size c64 k) v /\
  forall b, zlen b = zlen buf -> gelf_get le c64 k ty b ndx = get_at le c64 k b (ndx * size c64 k).
Proof.
  intros le c64 k ty buf d ndx v B; unfold gelf_update, gelf_get; destruct k; try (unfold by_number in B; cbn in B; intuition discriminate);
  repeat match goal with |- context [if negb (?a =? ?b) then _ else _] => destruct (Z.eqb_spec a b); cbn [negb] end; cbn [refuse r_ret]; try discriminate.
  all: try (destruct (ndx <? 0); [discriminate|]).
  all: try (destruct (negb c64 && too_large _ v) eqn:T; [discriminate|]).
  all: try (destruct (ndx =? 2147483647); [discriminate|]).
  all: try (destruct (invalid_ndx _ _ _) eqn:IX; [discriminate|]).
  all: try (destruct (invalid_auxv _ _ _) eqn:IX; [discriminate|]).
  all: try discriminate.
  all: intros RR; split; [assumption|]; split; [try (intros ->; exact T); try (intros; reflexivity)|]; split; [reflexivity|]; intros b LB; rewrite LB, IX; reflexivity.
Qed.

(* what was stored is read again, by a later call for the same number, and nothing else in the buffer changes *)
Theorem C23_roundtrip : forall le c64 k ty buf d ndx v, by_number k -> is_record k v -> r_ret (gelf_update le c64 k ty buf d ndx v) = Ok tt ->
  gelf_get le c64 k ty (r_buf (gelf_update le c64 k ty buf d ndx v)) ndx = Ok v /\
  only_changed buf (r_buf (gelf_update le c64 k ty buf d ndx v)) (ndx * size c64 k) ((ndx + 1) * size c64 k) /\ r_dirty (gelf_update le c64 k ty buf d ndx v) = true.
Proof.
  intros le c64 k ty buf d ndx v B R RR; destruct (update_ok _ _ _ _ _ _ _ _ B RR) as (T & S0 & E & G); rewrite E in RR |- *.
  destruct (store_cases le c64 k buf (ndx * size c64 k) v) as [(b & P & ->)|[P Q]]; [|rewrite Q in RR; discriminate]; cbn [r_buf r_dirty].
  destruct (put_get le c64 k buf (ndx * size c64 k) v b (by_move k B) R (fun X => proj1 (too_large_fits k v R) (S0 X)) P) as [G1 G2].
  split; [rewrite G by apply G2; exact G1|]; split; [|reflexivity].
  replace ((ndx + 1) * size c64 k) with (ndx * size c64 k + size c64 k) by lia; exact G2.
Qed.
Print Assumptions C23_roundtrip.
(* the other records of the table *)
Theorem C23_others : forall le c64 k ty buf d ndx v j, by_number k -> is_record k v -> j <> ndx -> r_ret (gelf_update le c64 k ty buf d ndx v) = Ok tt ->
  gelf_get le c64 k ty (r_buf (gelf_update le c64 k ty buf d ndx v)) j = gelf_get le c64 k ty buf j.
Proof.
  intros le c64 k ty buf d ndx v j B R NE RR; destruct (C23_roundtrip le c64 k ty buf d ndx v B R RR) as (_ & [L O] & _).
  assert (X : get_at le c64 k (r_buf (gelf_update le c64 k ty buf d ndx v)) (j * size c64 k) = get_at le c64 k buf (j * size c64 k)).
  { apply get_ext; [exact L|]; intros i II; apply O; pose proof (size_pos c64 k); nia. }
  unfold gelf_get; rewrite L, X; reflexivity.
Qed.
Print Assumptions C23_others.
(* exactly the updates of records inside the data whose values the file can hold are accepted; all others are refused and change nothing *)
Theorem C23_accept : forall le c64 k ty buf d ndx v, by_number k -> is_record k v -> zlen buf < 2 ^ 32 -> - 2 ^ 31 <= ndx < 2 ^ 31 - 1 ->
  let r := gelf_update le c64 k ty buf d ndx v in
  (r_ret r = Ok tt <-> ty = ktype k /\ 0 <= ndx /\ (ndx + 1) * size c64 k <= zlen buf /\ (c64 = false -> fits k v)) /\
  (r_ret r <> Ok tt -> r_buf r = buf /\ r_dirty r = d /\ exists e, r_ret r = Err e /\ In e [ELF_E_INVALID_INDEX; ELF_E_DATA_MISMATCH; ELF_E_INVALID_DATA]).
Proof.
  intros le c64 k ty buf d ndx v B R L N r.
  assert (TF := too_large_fits k v R).
  assert (NX := ndx_ok c64 k buf ndx ltac:(lia) L).
  assert (ST : in_data c64 k buf ndx -> r_ret (store_at le c64 k buf (ndx * size c64 k) v) = Ok tt).
  { intro X; apply in_at in X; destruct (proj2 (at_inside le c64 k buf _ (proj1 X) (proj2 X)) v) as [b Pb]; unfold store_at; rewrite Pb; reflexivity. }
  assert (REF : forall e (P : Prop), ~ P -> In e [ELF_E_INVALID_INDEX; ELF_E_DATA_MISMATCH; ELF_E_INVALID_DATA] ->
     (r_ret (refuse e buf d) = Ok tt <-> P) /\ (r_ret (refuse e buf d) <> Ok tt -> r_buf (refuse e buf d) = buf /\ r_dirty (refuse e buf d) = d /\ exists e', r_ret (refuse e buf d) = Err e' /\ In e' [ELF_E_INVALID_INDEX; ELF_E_DATA_MISMATCH; ELF_E_INVALID_DATA])).
  { intros e P NP IE; cbn [refuse r_ret r_buf r_dirty]; split; [split; [discriminate | intro; contradiction] | intros _; eauto]. }
  assert (OKC : in_data c64 k buf ndx -> forall P : Prop, P -> (r_ret (store_at le c64 k buf (ndx * size c64 k) v) = Ok tt <-> P) /\ (r_ret (store_at le c64 k buf (ndx * size c64 k) v) <> Ok tt -> r_buf (store_at le c64 k buf (ndx * size c64 k) v) = buf /\ r_dirty (store_at le c64 k buf (ndx * size c64 k) v) = d /\ exists e, r_ret (store_at le c64 k buf (ndx * size c64 k) v) = Err e /\ In e [ELF_E_INVALID_INDEX; ELF_E_DATA_MISMATCH; ELF_E_INVALID_DATA])).
  { intros X P HP; specialize (ST X); split; [split; auto | intro; contradiction]. }
  assert (TL : c64 = false -> too_large k v = true -> ~ fits k v) by (intros _ X Y; apply TF in Y; congruence).
  assert (TT : negb c64 && too_large k v = false -> c64 = false -> fits k v) by (intros X ->; apply TF; exact X).
  assert (TN : negb c64 && too_large k v = true -> ~ (c64 = false -> fits k v)) by (destruct c64; [discriminate|]; intros X Y; apply (TL eq_refl X), Y; reflexivity).
  unfold in_data in NX; unfold r, gelf_update.
  destruct (k) eqn:K; try (unfold by_number in B; cbn in B; intuition discriminate); rewrite <- K in *.
  all: try (destruct (Z.eqb_spec ty (ktype k)) as [TE|TE]; cbn [negb]; [|apply REF; [tauto | cbn; tauto]]).
  all: try (destruct (negb c64 && too_large k v) eqn:TLE; [apply REF; [intros (_ & _ & _ & FF); exact (TN eq_refl FF) | cbn; tauto]|]).
  all: try (destruct (invalid_ndx ndx (size c64 k) (zlen buf)) eqn:IX; [apply REF; [intros (_ & A & A' & _); assert (true = false) by (apply NX; split; assumption); discriminate | cbn; tauto]|]; apply OKC; [apply NX; reflexivity | destruct (proj1 NX eq_refl); auto]; fail).
  - (* auxv *)
    destruct (ndx <? 0) eqn:NN; [apply REF; [lia | cbn; tauto]|].
    destruct (Z.eqb_spec ty (ktype k)) as [TE|TE]; cbn [negb]; [|apply REF; [tauto | cbn; tauto]].
    destruct (negb c64 && too_large k v) eqn:TLE; [apply REF; [intros (_ & _ & _ & FF); exact (TN eq_refl FF) | cbn; tauto]|].
    replace (ndx =? 2147483647) with false by lia.
    assert (AX := auxv_ok c64 k buf ndx ltac:(lia)); unfold in_data in AX.
    destruct (invalid_auxv ndx (size c64 k) (zlen buf)) eqn:IX; [apply REF; [intros (_ & A & A' & _); assert (true = false) by (apply AX; split; assumption); discriminate | cbn; tauto]|].
    apply OKC; [apply AX; reflexivity | destruct (proj1 AX eq_refl); auto].
  - (* versym *)
    destruct (invalid_ndx ndx (size c64 k) (zlen buf)) eqn:IX; [apply REF; [intros (_ & A & A' & _); assert (true = false) by (apply NX; split; assumption); discriminate | cbn; tauto]|].
    destruct (Z.eqb_spec ty (ktype k)) as [TE|TE]; cbn [negb]; [|apply REF; [tauto | cbn; tauto]].
    apply OKC; [apply NX; reflexivity | destruct (proj1 NX eq_refl); split; [assumption|]; split; [assumption|]; split; [assumption|]; intros _; rewrite K; unfold fits; cbn; destruct v as [|? [|? ?]]; exact Logic.I].
Qed.
Print Assumptions C23_accept.
Example ex_syms : bytes := repeat 0 32.
Example C23_accept_nonvacuous :
  is_record Ksym [1; 2; 3; 4; 5; 6] /\
  r_ret (gelf_update true false Ksym 11 ex_syms false 1 [1; 2; 3; 4; 5; 6]) = Ok tt /\
  gelf_get true false Ksym 11 (r_buf (gelf_update true false Ksym 11 ex_syms false 1 [1; 2; 3; 4; 5; 6])) 1 = Ok [1; 2; 3; 4; 5; 6] /\
  r_ret (gelf_update true false Ksym 11 ex_syms false 2 [1; 2; 3; 4; 5; 6]) = Err ELF_E_INVALID_INDEX /\
  r_ret (gelf_update true false Ksym 11 ex_syms false 1 [1; 2; 3; 4; 2 ^ 32; 6]) = Err ELF_E_INVALID_DATA /\
  r_ret (gelf_update true true Ksym 11 ex_syms false 0 [1; 2; 3; 4; 2 ^ 32; 6]) = Ok tt /\
  is_record Krela [7; rinfo 5 3; -1] /\
  r_buf (gelf_update true false Krela 7 (repeat 0 12) false 0 [7; rinfo 5 3; -1]) = [7; 0; 0; 0; 3; 5; 0; 0; 255; 255; 255; 255].
Proof. repeat split; try reflexivity; repeat (constructor; [vm_compute; split; [discriminate | reflexivity]|]); constructor. Qed.

(* reading: exactly the records inside the data.  (Not for a negative number and gelf_getauxv: C23_auxv_refuted.) *)
Theorem C23_index_partial : forall le c64 k ty buf ndx, by_number k -> zlen buf < 2 ^ 32 -> - 2 ^ 31 <= ndx < 2 ^ 31 - 1 -> (k = Kauxv -> 0 <= ndx) ->
  ((exists v, gelf_get le c64 k ty buf ndx = Ok v) <-> ty = ktype k /\ 0 <= ndx /\ (ndx + 1) * size c64 k <= zlen buf) /\
  (ty <> ktype k -> gelf_get le c64 k ty buf ndx = Err ELF_E_INVALID_HANDLE) /\
  (ty = ktype k -> ~ (0 <= ndx /\ (ndx + 1) * size c64 k <= zlen buf) -> gelf_get le c64 k ty buf ndx = Err ELF_E_INVALID_INDEX).
Proof.
  intros le c64 k ty buf ndx B L N AU.
  assert (NX : (match k with Kauxv => invalid_auxv ndx (size c64 k) (zlen buf) | _ => invalid_ndx ndx (size c64 k) (zlen buf) end) = false <-> in_data c64 k buf ndx)
    by (destruct k; try (apply ndx_ok; (lia || assumption)); apply auxv_ok; specialize (AU eq_refl); lia).
  assert (G : gelf_get le c64 k ty buf ndx = if negb (ty =? ktype k) then Err ELF_E_INVALID_HANDLE else if (match k with Kauxv => invalid_auxv ndx (size c64 k) (zlen buf) | _ => invalid_ndx ndx (size c64 k) (zlen buf) end) then Err ELF_E_INVALID_INDEX else get_at le c64 k buf (ndx * size c64 k)).
  { unfold gelf_get; destruct (negb _); [reflexivity|]; destruct k; try reflexivity; [|unfold by_number in B; cbn in B; intuition discriminate].
    replace (ndx =? 2147483647) with false by lia; reflexivity. }
  rewrite G; unfold in_data in NX; destruct (Z.eqb_spec ty (ktype k)) as [T|T]; cbn [negb].
  - destruct (match k with Kauxv => _ | _ => _ end) eqn:IX; (split; [|split; [congruence|]]).
    + split; [intros [v E]; discriminate | intros (_ & A); apply NX in A; discriminate].
    + reflexivity.
    + split; [intros _; split; [exact T | apply NX; reflexivity] | intros _].
      assert (X := in_at c64 k buf ndx (proj1 NX eq_refl)); exact (proj1 (at_inside le c64 k buf _ (proj1 X) (proj2 X))).
    + intros _ A; exfalso; apply A, NX; reflexivity.
  - split; [split; [intros [v E]; discriminate | tauto]|]; split; [reflexivity | intro; contradiction].
Qed.
Print Assumptions C23_index_partial.
Example C23_index_nonvacuous : gelf_get true true Kdyn 2 [1; 0; 0; 0; 0; 0; 0; 0; 2; 0; 0; 0; 0; 0; 0; 0] 0 = Ok [1; 2] /\ gelf_get true true Kdyn 2 [1; 0; 0; 0; 0; 0; 0; 0; 2; 0; 0; 0; 0; 0; 0; 0] 1 = Err ELF_E_INVALID_INDEX /\
  gelf_get true true Kdyn 2 [1; 0; 0; 0; 0; 0; 0; 0; 2; 0; 0; 0; 0; 0; 0; 0] (-1) = Err ELF_E_INVALID_INDEX /\ gelf_get true true Kdyn 3 (repeat 0 16) 0 = Err ELF_E_INVALID_HANDLE.
Proof. repeat split. Qed.

(* storing what was read changes nothing *)
Theorem C23_write_back : forall le c64 k ty buf d ndx v, by_number k -> bytes_ok buf -> zlen buf < 2 ^ 32 -> 0 <= ndx < 2 ^ 31 - 1 -> gelf_get le c64 k ty buf ndx = Ok v ->
  is_record k v /\ r_ret (gelf_update le c64 k ty buf d ndx v) = Ok tt /\ r_buf (gelf_update le c64 k ty buf d ndx v) = buf.
Proof.
  intros le c64 k ty buf d ndx v B OB L N G.
  destruct (C23_index_partial le c64 k ty buf ndx B L ltac:(lia) ltac:(lia)) as ((I1 & _) & _ & _).
  destruct (I1 (ex_intro _ v G)) as (T & A & A').
  assert (GA : get_at le c64 k buf (ndx * size c64 k) = Ok v).
  { unfold gelf_get in G; destruct (negb _); [discriminate|]; destruct k; try (destruct (invalid_ndx _ _ _); [discriminate | exact G]); try discriminate.
    destruct (ndx =? 2147483647); [discriminate|]; destruct (invalid_auxv _ _ _); [discriminate | exact G]. }
  destruct (get_put le c64 k buf _ v (by_move k B) OB GA) as (P & R & F).
  assert (RR : r_ret (gelf_update le c64 k ty buf d ndx v) = Ok tt) by (apply (C23_accept le c64 k ty buf d ndx v B R L ltac:(lia)); auto).
  split; [exact R|]; split; [exact RR|].
  destruct (update_ok _ _ _ _ _ _ _ _ B RR) as (_ & _ & E & _); rewrite E; unfold store_at; rewrite P; reflexivity.
Qed.
Print Assumptions C23_write_back.
Example C23_write_back_nonvacuous : gelf_get false false Krel 8 [0; 0; 1; 0; 0; 0; 2; 3] 0 = Ok [256; rinfo 2 3] /\ r_buf (gelf_update false false Krel 8 [0; 0; 1; 0; 0; 0; 2; 3] false 0 [256; rinfo 2 3]) = [0; 0; 1; 0; 0; 0; 2; 3].
Proof. split; reflexivity. Qed.

(* every member is read from, and stored in, the member of the same name of the structure declared for the class; the relocation information is symbol and type *)
Theorem C23_members : forall le c64 k buf base v i n w s, get_at le c64 k buf base = Ok v -> nth_error (decl64 k) i = Some (n, (w, s)) ->
  exists o w', member (decl_of c64 k) 0 n = Some (G o w' s) /\ o + w' <= width (decl_of c64 k) /\
    let raw := dec le (zsub buf (base + o) w') in
    nth_error v i = Some (if String.eqb n "r_info" && negb c64 then rinfo (raw / 2 ^ 8) (raw mod 2 ^ 8) mod 2 ^ 64 else if s then (if raw <? 2 ^ (8 * w' - 1) then raw else raw - 2 ^ (8 * w')) else raw).
Proof.
  intros le c64 k buf base v i n w s G N; unfold get_at in G; destruct (_ && _); [|discriminate]; injection G as <-.
  destruct c64, k; do 30 (try (destruct i as [|i]; cbn in N; [try discriminate; injection N as <- <- <-; eexists; eexists; split; [reflexivity|]; split; [vm_compute; discriminate | reflexivity]|])); destruct i; discriminate.
Qed.
Print Assumptions C23_members.
Theorem C23_sizes : forall c64 k, k <> Kmove -> size c64 k = width (decl_of c64 k).
Proof. intros [|] k; destruct k; intro; try reflexivity; congruence. Qed.
Print Assumptions C23_sizes.

(* version information: the offset must be a multiple of 4, or of 16 for the records of SHT_GNU_verneed (C23_version_refuted) *)
Lemma off_move : forall k, by_offset k -> k <> Kmove.
Proof. intros k B ->; unfold by_offset in B; cbn in B; intuition discriminate. Qed.
(* Version information: reading needs an offset which is a multiple of 4, or of 16 for the records of SHT_GNU_verneed (C23_version_refuted). *)
Theorem C23_version_partial : forall le k ty buf d off v, by_offset k -> is_record k v ->
  let r := gelf_updatever le k ty buf d off v in
  (r_ret r = Ok tt <-> ty = ktype k /\ 0 <= off /\ off + size32 k <= zlen buf) /\
  (r_ret r <> Ok tt -> r_buf r = buf /\ r_dirty r = d /\ exists e, r_ret r = Err e) /\
  (r_ret r = Ok tt -> only_changed buf (r_buf r) off (off + size32 k) /\ r_dirty r = true /\ (off mod ver_step k = 0 -> gelf_getver le k ty (r_buf r) off = Ok v)).
Proof.
  intros le k ty buf d off v B R r.
  assert (SZ : size true k = size32 k) by (unfold by_offset in B; cbn in B; destruct B as [<-|[<-|[<-|[<-|[]]]]]; reflexivity).
  unfold r, gelf_updatever.
  destruct ((off <? 0) || (zlen buf <? off + size32 k)) eqn:C.
  { cbn; split; [split; [discriminate | lia]|]; split; [eauto | discriminate]. }
  destruct (Z.eqb_spec ty (ktype k)) as [T|T]; cbn [negb].
  2: { cbn; split; [split; [discriminate | tauto]|]; split; [eauto | discriminate]. }
  destruct (proj2 (at_inside le true k buf off ltac:(lia) ltac:(lia)) v) as [b P].
  unfold store_at; rewrite P; cbn [r_ret r_buf r_dirty]; split; [split; [intros _; split; [exact T | lia] | reflexivity]|]; split; [congruence|]; intros _.
  destruct (put_get le true k buf off v b (off_move k B) R ltac:(discriminate) P) as [G1 G2]; rewrite SZ in G2; split; [exact G2|]; split; [reflexivity|]; intro AL.
  unfold gelf_getver; rewrite T, Z.eqb_refl; cbn [negb]; rewrite (proj1 G2), C, AL; cbn [Z.eqb negb orb]; exact G1.
Qed.
Print Assumptions C23_version_partial.
Example C23_version_nonvacuous : r_ret (gelf_updatever true Kverdaux 15 (repeat 9 16) false 4 [1; 2]) = Ok tt /\ gelf_getver true Kverdaux 15 (r_buf (gelf_updatever true Kverdaux 15 (repeat 9 16) false 4 [1; 2])) 4 = Ok [1; 2] /\
  r_ret (gelf_updatever true Kverdaux 15 (repeat 9 16) false 12 [1; 2]) = Err ELF_E_INVALID_INDEX.
Proof. repeat split. Qed.
(* a record which follows another of a different size is stored but not read: all the records of SHT_GNU_verneed happen to have 16 bytes, but need not start at a multiple of 16 *)
Theorem C23_version_refuted : exists buf off v, is_record Kverneed v /\ r_ret (gelf_updatever true Kverneed 17 buf false off v) = Ok tt /\ off mod 4 = 0 /\ gelf_getver true Kverneed 17 (r_buf (gelf_updatever true Kverneed 17 buf false off v)) off = Err ELF_E_OFFSET_RANGE.
Proof. exists (repeat 0 24), 8, [1; 1; 2; 16; 0]; split; [|repeat split]; repeat (constructor; [vm_compute; split; [discriminate | reflexivity]|]); constructor. Qed.
Print Assumptions C23_version_refuted.

(* the ELF header and section headers *)
Theorem C23_header : forall le c64 k h d v, k = Kehdr \/ k = Kshdr -> is_record k v -> zlen h = size c64 k ->
  let r := gelf_updatehdr le c64 k (Some h) d v in
  (r_ret r = Ok tt <-> (c64 = false -> fits k v)) /\
  (r_ret r = Ok tt -> gelf_gethdr le c64 k (Some (r_buf r)) = Ok v /\ r_dirty r = true) /\
  (r_ret r <> Ok tt -> r_ret r = Err ELF_E_INVALID_DATA /\ r_buf r = h /\ r_dirty r = d).
Proof.
  intros le c64 k h d v K R L r; unfold r, gelf_updatehdr.
  assert (TF := too_large_fits k v R).
  destruct (negb c64 && too_large k v) eqn:T.
  - cbn; split; [split; [discriminate|]|split; [discriminate | auto]].
    destruct c64; [discriminate|]; cbn in T; intro X; specialize (X eq_refl); apply TF in X; congruence.
  - assert (FT : c64 = false -> fits k v) by (intros ->; apply TF; exact T).
    destruct (proj2 (at_inside le c64 k h 0 ltac:(lia) ltac:(lia)) v) as [b P]; unfold store_at; rewrite P; cbn [r_ret r_buf r_dirty].
    split; [tauto|]; split; [|congruence]; intros _; split; [|reflexivity].
    apply (put_get le c64 k h 0 v b); (assumption || (destruct K; subst; discriminate)).
Qed.
Print Assumptions C23_header.
Example C23_header_nonvacuous : r_ret (gelf_updatehdr true false Kshdr (Some (repeat 0 40)) false [1; 2; 3; 4; 5; 6; 7; 8; 9; 10]) = Ok tt /\ r_ret (gelf_updatehdr true false Kshdr (Some (repeat 0 40)) false [1; 2; 3; 4; 5; 2 ^ 32; 7; 8; 9; 10]) = Err ELF_E_INVALID_DATA.
Proof. split; reflexivity. Qed.

(* program headers: numbers which are not negative, and a header which says how many there are (C23_phdr_refuted, C23_xnum_refuted) *)
Theorem C23_phdr_partial : forall le c64 tab d e_phnum phnum ndx v, is_record Kphdr v -> zlen tab = phnum * size c64 Kphdr -> 0 <= ndx < 2 ^ 31 -> phnum < 2 ^ 32 -> (e_phnum = phnum /\ phnum < 65535) \/ (e_phnum = 65535 /\ 65535 <= phnum) ->
  let r := gelf_updatephdr le c64 tab d e_phnum phnum ndx v in
  (r_ret r = Ok tt <-> ndx < phnum /\ (c64 = false -> fits Kphdr v)) /\
  (r_ret r = Ok tt -> gelf_getphdr le c64 (r_buf r) phnum ndx = Ok v /\ only_changed tab (r_buf r) (ndx * size c64 Kphdr) ((ndx + 1) * size c64 Kphdr) /\ r_dirty r = true /\
     forall j, 0 <= j -> j <> ndx -> gelf_getphdr le c64 (r_buf r) phnum j = gelf_getphdr le c64 tab phnum j) /\
  (r_ret r <> Ok tt -> r_buf r = tab /\ r_dirty r = d /\ exists e, r_ret r = Err e).
Proof.
  intros le c64 tab d e_phnum phnum ndx v R L N PN E r; unfold r, gelf_updatephdr.
  assert (TF := too_large_fits Kphdr v R); pose proof (size_pos c64 Kphdr) as SP.
  destruct (negb c64 && too_large Kphdr v) eqn:T.
  - cbn [refuse r_ret r_buf r_dirty]; split; [split; [discriminate|]|split; [discriminate | eauto]].
    destruct c64; [discriminate|]; cbn [negb andb] in T; intros [_ X]; specialize (X eq_refl); apply TF in X; congruence.
  - assert (FT : c64 = false -> fits Kphdr v) by (intros ->; apply TF; exact T).
    assert (UX : u64 ndx = ndx) by (unfold u64; apply Z.mod_small; lia).
    rewrite UX.
    destruct ((e_phnum <=? ndx) && (negb (e_phnum =? 65535) || (phnum <=? ndx))) eqn:C.
    + cbn; split; [split; [discriminate | lia] | split; [discriminate | eauto]].
    + assert (NN : ndx < phnum) by lia.
      destruct (proj2 (at_inside le c64 Kphdr tab (ndx * size c64 Kphdr) ltac:(nia) ltac:(nia)) v) as [b P]; unfold store_at; rewrite P; cbn [r_ret r_buf r_dirty].
      destruct (put_get le c64 Kphdr tab _ v b ltac:(discriminate) R FT P) as [G1 G2].
      split; [tauto|]; split; [|congruence]; intros _; split.
      * unfold gelf_getphdr; rewrite UX; replace (phnum <=? ndx) with false by lia; exact G1.
      * split; [replace ((ndx + 1) * size c64 Kphdr) with (ndx * size c64 Kphdr + size c64 Kphdr) by lia; exact G2|]; split; [reflexivity|]; intros j J NE.
        unfold gelf_getphdr; destruct (phnum <=? u64 j); [reflexivity|]; apply get_ext; [apply G2|]; intros i II; apply (proj2 G2); nia.
Qed.
Print Assumptions C23_phdr_partial.
Example C23_phdr_nonvacuous : r_ret (gelf_updatephdr true true (repeat 0 112) false 2 2 1 [1; 5; 0; 0; 0; 1; 1; 4096]) = Ok tt /\ r_ret (gelf_updatephdr true true (repeat 0 112) false 2 2 2 [1; 5; 0; 0; 0; 1; 1; 4096]) = Err ELF_E_INVALID_INDEX.
Proof. split; reflexivity. Qed.
(* a negative number passes the test and memory in front of the table is written *)
Theorem C23_phdr_refuted : exists tab v, is_record Kphdr v /\ zlen tab = 2 * size true Kphdr /\ r_ret (gelf_updatephdr true true tab false 2 2 (-1) v) = UB.
Proof. exists (repeat 0 112), [1; 5; 0; 0; 0; 1; 1; 4096]; split; [repeat (constructor; [vm_compute; split; [discriminate | reflexivity]|]); constructor | split; reflexivity]. Qed.
Print Assumptions C23_phdr_refuted.
(* a file whose header says PN_XNUM although section 0 gives a smaller number *)
Theorem C23_xnum_refuted : exists tab v, is_record Kphdr v /\ zlen tab = 2 * size true Kphdr /\ r_ret (gelf_updatephdr true true tab false 65535 2 2 v) = UB.
Proof. exists (repeat 0 112), [1; 5; 0; 0; 0; 1; 1; 4096]; split; [repeat (constructor; [vm_compute; split; [discriminate | reflexivity]|]); constructor | split; reflexivity]. Qed.
Print Assumptions C23_xnum_refuted.

(* symbols together with their extended section index *)
Theorem C23_symshndx : forall le c64 buf d xb ndx v sh, is_record Ksym v -> 0 <= sh < 2 ^ 32 -> zlen buf < 2 ^ 32 -> zlen xb < 2 ^ 32 -> - 2 ^ 31 <= ndx < 2 ^ 31 - 1 ->
  let r := gelf_updatesymshndx le c64 11 buf d (Some xb) ndx v sh in
  (r_ret (fst r) = Ok tt <-> 0 <= ndx /\ (ndx + 1) * size c64 Ksym <= zlen buf /\ (ndx + 1) * 4 <= zlen xb /\ (c64 = false -> fits Ksym v)) /\
  (r_ret (fst r) = Ok tt -> exists xb', snd r = Some xb' /\ gelf_getsymshndx le c64 11 (r_buf (fst r)) (Some (12, xb')) ndx = Ok (v, sh) /\
     only_changed buf (r_buf (fst r)) (ndx * size c64 Ksym) ((ndx + 1) * size c64 Ksym) /\ only_changed xb xb' (4 * ndx) (4 * ndx + 4)) /\
  (r_ret (fst r) <> Ok tt -> r_buf (fst r) = buf /\ snd r = Some xb /\ r_dirty (fst r) = d /\ exists e, r_ret (fst r) = Err e).
Proof.
  intros le c64 buf d xb ndx v sh R SH L LX N r; unfold r, gelf_updatesymshndx; cbn [Z.eqb negb Pos.eqb].
  replace (ndx =? 2147483647) with false by lia.
  assert (BN : by_number Ksym) by (unfold by_number; cbn; tauto).
  pose proof (zlen_nonneg _ xb) as NX.
  destruct (C23_accept le c64 Ksym 11 buf d ndx v BN R L N) as [A1 A2].
  pose proof (size_pos c64 Ksym) as SP.
  destruct (zlen xb <? u64 ((ndx + 1) * 4)) eqn:C.
  { cbn; split; [split; [discriminate|]|split; [discriminate | eauto]].
    intros (X1 & X2 & X3 & _); unfold u64 in C; rewrite Z.mod_small in C by lia; lia. }
  destruct (r_ret (gelf_update le c64 Ksym 11 buf d ndx v)) as [[]| | |] eqn:RR.
  - destruct (proj1 A1 eq_refl) as (_ & B1 & B2 & B3).
    assert (CX : 4 * ndx + 4 <= zlen xb) by (unfold u64 in C; rewrite Z.mod_small in C by lia; lia).
    replace ((0 <=? ndx) && (4 * ndx + 4 <=? zlen xb)) with true by lia; cbn [fst snd].
    destruct (C23_roundtrip le c64 Ksym 11 buf d ndx v BN R RR) as (G1 & G2 & G3).
    rewrite RR; split; [split; [intros _; repeat split; (lia || assumption) | reflexivity]|]; split; [|congruence].
    intros _; eexists; split; [reflexivity|].
    assert (LE : zlen (enc le 4 sh) = 4) by (apply zlen_enc; lia).
    assert (ZB := zlen_bput xb (4 * ndx) (enc le 4 sh) ltac:(lia) ltac:(lia)).
    split; [|split; [exact G2|split; [exact ZB|]]].
    + unfold gelf_getsymshndx; cbn [Z.eqb negb Pos.eqb orb].
      assert (IX : invalid_ndx ndx 4 (zlen (bput xb (4 * ndx) (enc le 4 sh))) = false).
      { rewrite ZB; unfold invalid_ndx, u32; rewrite Z.mod_small by lia; apply Z.leb_gt; enough (ndx + 1 <= zlen xb / 4) by lia; apply Z.div_le_lower_bound; lia. }
      rewrite IX, ZB; replace ((0 <=? ndx) && (4 * ndx + 4 <=? zlen xb)) with true by lia; cbn [obind].
      rewrite G1; cbn [obind].
      pose proof (zsub_bput_same xb (4 * ndx) (enc le 4 sh) ltac:(lia) ltac:(lia)) as ZS; rewrite LE in ZS; rewrite ZS, dec_enc by lia; rewrite Z.mod_small by (change (2 ^ (8 * 4)) with (2 ^ 32); lia); reflexivity.
    + intros i II; rewrite znth_bput by lia; rewrite LE; replace ((4 * ndx <=? i) && (i <? 4 * ndx + 4)) with false by lia; reflexivity.
  - cbn [fst snd]; rewrite RR; destruct (A2 ltac:(discriminate)) as (Q1 & Q2 & _ & _); split; [split; [discriminate | intros (X1 & X2 & X3 & X4); assert (Err e = Ok tt) by (apply A1; auto); discriminate]|]; split; [discriminate | eauto].
  - destruct (A2 ltac:(discriminate)) as (_ & _ & e & Q & _); discriminate.
  - destruct (A2 ltac:(discriminate)) as (_ & _ & e & Q & _); discriminate.
Qed.
Print Assumptions C23_symshndx.
Example C23_symshndx_nonvacuous : r_ret (fst (gelf_updatesymshndx true true 11 (repeat 0 48) false (Some (repeat 0 8)) 1 [1; 2; 3; 65535; 5; 6] 70000)) = Ok tt /\ r_ret (fst (gelf_updatesymshndx true true 11 (repeat 0 48) false (Some (repeat 0 4)) 1 [1; 2; 3; 65535; 5; 6] 70000)) = Err ELF_E_INVALID_INDEX.
Proof. split; reflexivity. Qed.

(* gelf_getmove and gelf_update_move always fail an assertion *)
Theorem C23_move_refuted : forall le c64 buf d ndx v, gelf_get le c64 Kmove (ktype Kmove) buf ndx = UB /\ r_ret (gelf_update le c64 Kmove (ktype Kmove) buf d ndx v) = UB.
Proof. intros; split; reflexivity. Qed.
Print Assumptions C23_move_refuted.
(* gelf_getauxv (data, -1, ...) reads in front of the buffer *)
Theorem C23_auxv_refuted : forall le c64 buf, gelf_get le c64 Kauxv (ktype Kauxv) buf (-1) = UB.
Proof.
  intros le c64 buf; unfold gelf_get; rewrite Z.eqb_refl; cbn [negb Z.eqb].
  assert (X : invalid_auxv (-1) (size c64 Kauxv) (zlen buf) = false) by (unfold invalid_auxv; replace (u64 ((-1 + 1) * size c64 Kauxv)) with 0 by reflexivity; pose proof (zlen_nonneg _ buf); apply Z.ltb_ge; assumption).
  rewrite X; apply at_outside; destruct c64; cbn; lia.
Qed.
Print Assumptions C23_auxv_refuted.
(* in data of 16 GiB a negative number passes the test *)
Theorem C23_negative_refuted : exists le c64 k buf, by_number k /\ gelf_get le c64 k (ktype k) buf (-1) = UB.
Proof.
  exists true, false, Ksyminfo, (repeat 0 (Z.to_nat (2 ^ 34))); split; [unfold by_number; cbn; tauto|].
  unfold gelf_get; rewrite Z.eqb_refl; cbn [negb].
  assert (L : zlen (repeat 0 (Z.to_nat (2 ^ 34))) = 2 ^ 34) by (rewrite zlen_repeat, Z2Nat.id by lia; reflexivity).
  set (b := repeat 0 (Z.to_nat (2 ^ 34))) in *; clearbody b.
  rewrite L; change (invalid_ndx (-1) (size false Ksyminfo) (2 ^ 34)) with false; cbv iota; apply at_outside; cbn; lia.
Qed.
Print Assumptions C23_negative_refuted.
