(* The properties of the links to separate debug files, of build IDs and of the size of
   compressed sections: libdwelf. *)
From Verif Require Import Base XlateModel XlateSpec XlateProof XlateNoteProof XlateVerProof CrcModel NoteModel NoteProps IdModel IdSpec IdProof.

(* dwelf_elf_gnu_debuglink never reads outside the section; it gives a name and a checksum exactly
   if the first section of that name has them, behind sections that can all be read *)
Theorem C83_debuglink : forall le ss, exists r, gnu_debuglink true true le ss = Ok r /\ forall raw crc, r = Some (raw, crc) <->
  exists before s after name, ss = before ++ s :: after /\ Forall (fun t => l_shdr t = true /\ exists n, l_name t = Some n /\ n <> debuglink_name) before /\
    l_shdr s = true /\ l_name s = Some debuglink_name /\ l_raw s = Some raw /\ is_debuglink le raw name crc.
Proof.
  intros le ss. unfold gnu_debuglink. cbn [negb].
  assert (FL : match find_link ss with
               | Some s => exists before after, ss = before ++ s :: after /\ Forall (fun t => l_shdr t = true /\ exists n, l_name t = Some n /\ n <> debuglink_name) before /\ l_shdr s = true /\ l_name s = Some debuglink_name
               | None => forall before s after, ss = before ++ s :: after -> Forall (fun t => l_shdr t = true /\ exists n, l_name t = Some n /\ n <> debuglink_name) before -> l_shdr s = true -> l_name s = Some debuglink_name -> False
               end).
  { induction ss as [|t ss IH]; cbn [find_link]; [intros [|? ?] s after E; discriminate|]. destruct (l_shdr t) eqn:SH; cbn [negb].
    - destruct (l_name t) as [n|] eqn:NM.
      + destruct (beq n debuglink_name) eqn:B.
        * apply beq_ok in B. subst n. exists [], ss. split; [reflexivity|]. split; [constructor|]. auto.
        * assert (NB : n <> debuglink_name) by (intros X; apply beq_ok in X; congruence). destruct (find_link ss) as [s|].
          -- destruct IH as (before & after & -> & F & X). exists (t :: before), after. split; [reflexivity|]. split; [constructor; [split; [exact SH|exists n; auto]|exact F]|exact X].
          -- intros [|t' before] s after E F S N; cbn [app] in E; injection E as E1 E2; subst; [congruence|]. apply Forall_cons_iff in F. exact (IH before s after eq_refl (proj2 F) S N).
      + intros [|t' before] s after E F S N; cbn [app] in E; injection E as E1 E2; subst; [congruence|]. apply Forall_cons_iff in F. destruct F as ((_ & n & X & _) & _). congruence.
    - intros [|t' before] s after E F S N; cbn [app] in E; injection E as E1 E2; subst; [congruence|]. apply Forall_cons_iff in F. destruct F as ((X & _) & _). congruence. }
  destruct (find_link ss) as [s|] eqn:FE.
  - destruct FL as (before & after & E & F & S & N).
    assert (U : forall before' s' after', ss = before' ++ s' :: after' -> Forall (fun t => l_shdr t = true /\ exists n, l_name t = Some n /\ n <> debuglink_name) before' -> l_name s' = Some debuglink_name -> s' = s).
    { clear - E F N. subst ss. induction F as [|t before (H1 & n & H2 & H3) F IH]; intros [|t' before'] s' after' E' F' N'; cbn [app] in E'; injection E' as E1 E2; subst; auto.
      - apply Forall_cons_iff in F'. destruct F' as ((_ & n & X & Y) & _). congruence.
      - congruence.
      - apply Forall_cons_iff in F'. exact (IH before' s' after' E2 (proj2 F') N'). }
    destruct (l_raw s) as [raw|] eqn:R.
    + destruct (link_ok le raw) as (r & -> & K). cbn [obind]. destruct r as [crc|].
      * eexists. split; [reflexivity|]. intros raw' crc'. split.
        -- intros X. injection X as <- <-. destruct (proj1 (K crc) eq_refl) as (name & L). exists before, s, after, name. auto 10.
        -- intros (b' & s' & a' & name & E' & F' & S' & N' & R' & L). rewrite (U _ _ _ E' F' N') in R'. rewrite R in R'. injection R' as <-. assert (X : Some crc = Some crc') by (apply K; exists name; exact L). injection X as <-. reflexivity.
      * exists None. split; [reflexivity|]. intros raw' crc'. split; [discriminate|]. intros (b' & s' & a' & name & E' & F' & S' & N' & R' & L). exfalso. rewrite (U _ _ _ E' F' N') in R'. rewrite R in R'. injection R' as <-. assert (X : None = Some crc') by (apply K; exists name; exact L). discriminate.
    + exists None. split; [reflexivity|]. intros raw' crc'. split; [discriminate|]. intros (b' & s' & a' & name & E' & F' & S' & N' & R' & L). exfalso. rewrite (U _ _ _ E' F' N') in R'. congruence.
  - exists None. split; [reflexivity|]. intros raw' crc'. split; [discriminate|]. intros (b' & s' & a' & name & E' & F' & S' & N' & _). exfalso. exact (FL _ _ _ E' F' S' N').
Qed.
Print Assumptions C83_debuglink.
Example C83_debuglink_nonvacuous : gnu_debuglink true true false [LSec true (Some []) None; LSec true (Some debuglink_name) (Some [97; 46; 100; 0; 1; 2; 3; 4]); LSec false None None] = Ok (Some ([97; 46; 100; 0; 1; 2; 3; 4], 0x01020304)) /\ is_debuglink false [97; 46; 100; 0; 1; 2; 3; 4] [97; 46; 100] 0x01020304.
Proof. split; [vm_compute; reflexivity|]. exists [], [1; 2; 3; 4]. split; [reflexivity|]. split; [cbn; lia|]. split; reflexivity. Qed.

(* dwelf_dwarf_gnu_debugaltlink gives the name and the build ID exactly if they are there *)
Theorem C83_altlink : forall d, zlen d < two63 -> exists n p, gnu_debugaltlink (Some d) = Ok (n, p) /\
  match p with
  | Some q => exists name id, is_altlink d name id /\ q = zlen name + 1 /\ n = zlen id
  | None => n = -1 /\ forall name id, ~ is_altlink d name id
  end.
Proof.
  intros d SZ. unfold gnu_debugaltlink. destruct (memchr_spec (length d) [] d ltac:(lia)) as [(a & b & M & E & N & LA)|(M & N)]; cbn [app] in M; change (zlen []) with 0 in M; rewrite M; cbn [obind].
  - assert (ZD : zlen d = zlen a + 1 + zlen b) by (subst d; rewrite zlen_app, zlen_cons; lia). pose proof (zlen_nonneg _ a) as ZA. pose proof (zlen_nonneg _ b) as ZB. cbv zeta. replace (zlen d - (0 + zlen a + 1)) with (zlen b) by lia. assert (SB : s64 (zlen b) = zlen b) by (unfold s64; rewrite Z.mod_small; lia). rewrite SB. assert (UB : u64 (zlen b) = zlen b) by (unfold u64; rewrite Z.mod_small; lia). rewrite UB, Z.eqb_refl, orb_false_r. destruct (zlen b =? 0) eqn:Z0.
    + exists (-1), None. split; [reflexivity|]. split; [reflexivity|]. intros name id (E' & N' & I). rewrite E in E'. destruct (split_first _ _ _ _ E' N N') as (_ & <-). destruct b as [|x b]; [auto|]. rewrite zlen_cons in Z0. pose proof (zlen_nonneg _ b). lia.
    + exists (zlen b), (Some (0 + zlen a + 1)). split; [reflexivity|]. exists a, b. split; [|split; [lia|reflexivity]]. split; [exact E|]. split; [exact N|]. intros ->. discriminate Z0.
  - exists (-1), None. split; [reflexivity|]. split; [reflexivity|]. intros name id (E & _). apply N. rewrite firstn_all. subst d. apply in_or_app. right. left. reflexivity.
Qed.
Print Assumptions C83_altlink.
Example C83_altlink_nonvacuous : gnu_debugaltlink (Some [97; 98; 0; 1; 2; 3]) = Ok (3, Some 3) /\ gnu_debugaltlink (Some [97; 98; 0]) = Ok (-1, None).
Proof. vm_compute. auto. Qed.

(* the size of a section compressed in the GNU way is the one that its header has.  Missing: sizes of 2^63 and
   more, see C83_zsize_refuted *)
Theorem C83_zsize_partial : forall shdr alloc type raw n, bytes_ok raw -> zlen raw < two63 -> 0 <= n < two63 ->
  (gnu_compressed_size shdr alloc type (Some raw) = n <->
   shdr = true /\ alloc = false /\ type <> 0 /\ type <> 8 /\ exists rest, raw = [90; 76; 73; 66] ++ be_bytes 8 n ++ rest /\ zlen rest <= n + 11).
Proof.
  intros shdr alloc type raw n BO SZ N.
  unfold gnu_compressed_size. destruct shdr; cbn [negb]; [|split; [lia|intros (X & _); discriminate]]. destruct alloc; cbn [orb]; [split; [lia|intros (_ & X & _); discriminate]|]. destruct (type =? 0) eqn:T0; cbn [orb]; [split; [lia|intros (_ & _ & X & _); lia]|]. change SHT_NOBITS with 8. destruct (type =? 8) eqn:T8; [split; [lia|intros (_ & _ & _ & X & _); lia]|].
  destruct ((12 <=? zlen raw) && beq (zsub raw 0 4) [90; 76; 73; 66]) eqn:H.
  - apply andb_true_iff in H. destruct H as (L & B). apply beq_ok in B. cbv zeta.
    assert (SP : exists rest, raw = [90; 76; 73; 66] ++ zsub raw 4 8 ++ rest).
    { exists (zsub raw 12 (zlen raw - 12)). rewrite <- B. rewrite app_assoc. unfold zsub. change (Z.to_nat 0) with 0%nat. cbn [skipn]. change (Z.to_nat 4) with 4%nat. change (Z.to_nat 8) with 8%nat. change (Z.to_nat 12) with 12%nat.
      replace (firstn (Z.to_nat (zlen raw - 12)) (skipn 12 raw)) with (skipn 12 raw) by (symmetry; apply firstn_all2; rewrite skipn_length; unfold zlen; lia). rewrite <- (firstn_skipn 12 raw) at 1. f_equal. rewrite <- (firstn_skipn 4 (firstn 12 raw)) at 1. rewrite firstn_firstn. change (Nat.min 4 12) with 4%nat. f_equal. rewrite skipn_firstn_comm. reflexivity. }
    destruct SP as (rest & SP). set (w := zsub raw 4 8) in *.
    assert (LW : length w = 8%nat) by (assert (X : zlen w = 8) by (apply zsub_length; lia); unfold zlen in X; lia).
    assert (BW : bytes_ok w) by (rewrite SP in BO; apply bytes_ok_app in BO; destruct BO as (_ & BO); apply bytes_ok_app in BO; apply BO).
    assert (RW : be_bytes 8 (be_value w) = w) by (rewrite <- LW; apply be_bytes_value; exact BW).
    assert (VB : 0 <= be_value w < two64) by (pose proof (le_value_bound (rev w) ltac:(apply Forall_rev; exact BW)) as X; unfold zlen in X; rewrite rev_length, LW in X; exact X).
    assert (ZR : zlen raw = 12 + zlen rest) by (rewrite SP, !zlen_app; unfold zlen; rewrite LW; cbn [length]; lia). pose proof (zlen_nonneg _ rest) as ZN.
    destruct (u64 (be_value w + 4 + 8 + 6 + 5) <? zlen raw) eqn:U.
    + split; [lia|]. intros (_ & _ & _ & _ & rest' & E & LR). exfalso. assert (W' : w = be_bytes 8 n). { unfold w. rewrite E. pose proof (zsub_app _ [90; 76; 73; 66] (be_bytes 8 n) rest') as X. replace (zlen (be_bytes 8 n)) with 8 in X by (unfold zlen; rewrite be_bytes_length; reflexivity). exact X. }
      assert (V : be_value w = n) by (rewrite W', be_value_bytes; change (256 ^ Z.of_nat 8) with two64; rewrite Z.mod_small; lia). rewrite V in U. unfold u64 in U. rewrite Z.mod_small in U by lia. assert (ZE : zlen raw = 12 + zlen rest') by (rewrite E, !zlen_app; unfold zlen; rewrite be_bytes_length; cbn [length]; lia). lia.
    + split.
      * intros E. assert (SE : be_value w = n) by (unfold s64 in E; lia). split; [reflexivity|]. split; [reflexivity|]. split; [lia|]. split; [lia|]. exists rest. rewrite <- SE, RW. split; [exact SP|]. unfold u64 in U. rewrite Z.mod_small in U by lia. lia.
      * intros (_ & _ & _ & _ & rest' & E & LR). assert (W' : w = be_bytes 8 n). { unfold w. rewrite E. pose proof (zsub_app _ [90; 76; 73; 66] (be_bytes 8 n) rest') as X. replace (zlen (be_bytes 8 n)) with 8 in X by (unfold zlen; rewrite be_bytes_length; reflexivity). exact X. }
        assert (V : be_value w = n) by (rewrite W', be_value_bytes; change (256 ^ Z.of_nat 8) with two64; rewrite Z.mod_small; lia). rewrite V. unfold s64. rewrite Z.mod_small by lia. lia.
  - split; [lia|]. intros (_ & _ & _ & _ & rest & E & _). exfalso. apply andb_false_iff in H. destruct H as [H|H].
    + rewrite E, !zlen_app in H. pose proof (zlen_nonneg _ rest). unfold zlen at 2 in H. rewrite be_bytes_length in H. change (zlen [90; 76; 73; 66]) with 4 in H. lia.
    + assert (X : zsub raw 0 4 = [90; 76; 73; 66]) by (rewrite E; reflexivity). rewrite X in H. discriminate H.
Qed.
Print Assumptions C83_zsize_partial.
Example C83_zsize_partial_nonvacuous : gnu_compressed_size true false 1 (Some ([90; 76; 73; 66] ++ be_bytes 8 1000 ++ [120; 156; 3])) = 1000 /\ gnu_compressed_size true false 1 (Some ([90; 76; 73; 66] ++ be_bytes 8 1 ++ repeat 0 13)) = -1.
Proof. vm_compute. auto. Qed.
(* a header with a size of 2^63 or more gives a negative number other than -1, and a size at the
   end of the range passes the comparison with the size of the section *)
Theorem C83_zsize_refuted : exists raw, bytes_ok raw /\ gnu_compressed_size true false 1 (Some raw) = -5.
Proof. exists ([90; 76; 73; 66] ++ be_bytes 8 (two64 - 5) ++ [1; 2; 3]). split; [|vm_compute; reflexivity]. vm_compute. repeat constructor; discriminate. Qed.
Print Assumptions C83_zsize_refuted.

(* in a file whose note sections consist of notes, the build ID is the first build ID note of the
   first section with one; in a file without sections, of the first such segment *)
Definition none_before (l : list (nsec * bytes * list note)) (i : nat) : Prop := forall j s b ns, (j < i)%nat -> nth_error l j = Some (s, b, ns) -> Forall (fun n => ~ is_id n) ns.
Definition first_id (rel : bool) (l : list (nsec * bytes * list note)) (r : option (nat * (Z * Z * Z))) : Prop :=
  match r with
  | None => none_before l (length l)
  | Some (i, (pos, addr, len)) => none_before l i /\ exists s b n1 n n2, nth_error l i = Some (s, b, n1 ++ n :: n2) /\ Forall (fun n => ~ is_id n) n1 /\ is_id n /\
      zsub b pos len = no_desc n /\ len = zlen (no_desc n) /\ 0 <= pos /\ pos + len <= zlen b /\
      addr = if note_vaddr rel s =? NO_VADDR then 0 else u64 (note_vaddr rel s + pos)
  end.
Lemma ids_ok : forall fuel le rel l i, Forall (fun x => match x with (s, b, ns) => has_notes le s b ns /\ (length ns < fuel)%nat end) l ->
  exists r, find_ids fuel le rel i (map (fun x => fst (fst x)) l) = Ok r /\ first_id rel l (match r with Some (k, x) => Some ((k - i)%nat, x) | None => None end) /\ match r with Some (k, _) => (i <= k)%nat | None => True end.
Proof.
  intros fuel le rel. induction l as [|((s & b) & ns) l IH]; intros i F; cbn [map find_ids fst].
  - exists None. split; [reflexivity|]. split; [|exact I]. intros j s b ns J. cbn in J. lia.
  - apply Forall_cons_iff in F. destruct F as ((H & FU) & F).
    assert (SKIP : Forall (fun n => ~ is_id n) ns -> exists r, find_ids fuel le rel (S i) (map (fun x => fst (fst x)) l) = Ok r /\ first_id rel ((s, b, ns) :: l) (match r with Some (k, x) => Some ((k - i)%nat, x) | None => None end) /\ match r with Some (k, _) => (i <= k)%nat | None => True end).
    { intros NI. destruct (IH (S i) F) as (r & -> & FI & KI). exists r. split; [reflexivity|]. destruct r as [(k & ((pos & addr) & len))|]; cbn [first_id] in *.
      - destruct FI as (NB & X). split; [|lia]. replace (k - i)%nat with (S (k - S i)) by lia. split; [|exact X]. intros [|j] s' b' ns' J E; cbn [nth_error] in E; [injection E as <- <- <-; exact NI|]. apply (NB j s' b' ns'); [lia|exact E].
      - split; [|exact I]. intros [|j] s' b' ns' J E; cbn [nth_error] in E; [injection E as <- <- <-; exact NI|]. cbn [length] in J. apply (FI j s' b' ns'); [lia|exact E]. }
    destruct (n_note s) eqn:NN.
    + destruct (n_data s) as [d|] eqn:DD.
      * destruct (has_ok le s b ns H NN d DD fuel (note_vaddr rel s) FU) as (r & -> & R). cbn [obind]. destruct r as [((pos & addr) & len)|]; [|exact (SKIP R)].
        eexists. split; [reflexivity|]. cbn [first_id]. split; [|lia]. rewrite Nat.sub_diag. split; [intros j s' b' ns' J; lia|]. destruct R as (n1 & n & n2 & -> & R). exists s, b, n1, n, n2. split; [reflexivity|exact R].
      * apply SKIP. destruct H as [(_ & ->)|(_ & ty & tail & X & _)]; [constructor|congruence].
    + apply SKIP. destruct H as [(_ & ->)|(X & _)]; [constructor|congruence].
Qed.
Theorem C83_build_id : forall fuel le rel l phdrs, l <> [] -> Forall (fun x => match x with (s, b, ns) => has_notes le s b ns /\ (length ns < fuel)%nat end) l ->
  exists r, find_elf_build_id fuel le rel (map (fun x => fst (fst x)) l) phdrs = Ok (match r with Some _ => 1 | None => 0 end, r) /\ first_id rel l r.
Proof.
  intros fuel le rel l ph NE F. destruct (ids_ok fuel le rel l 0 F) as (r & E & FI & _). exists r. split.
  - unfold find_elf_build_id. destruct l as [|x l]; [congruence|]. cbn [map] in *. rewrite E. reflexivity.
  - destruct r as [(k & x)|]; [rewrite Nat.sub_0_r in FI|]; exact FI.
Qed.
Print Assumptions C83_build_id.
Theorem C83_build_id_segments : forall fuel le rel l, Forall (fun x => match x with (s, b, ns) => has_notes le s b ns /\ (length ns < fuel)%nat end) l ->
  exists r, find_elf_build_id fuel le rel [] (Some (map (fun x => fst (fst x)) l)) = Ok (match r with Some _ => 1 | None => 0 end, r) /\ first_id false l r.
Proof.
  intros fuel le rel l F. destruct (ids_ok fuel le false l 0 F) as (r & E & FI & _). exists r. split.
  - unfold find_elf_build_id. rewrite E. reflexivity.
  - destruct r as [(k & x)|]; [rewrite Nat.sub_0_r in FI|]; exact FI.
Qed.
Print Assumptions C83_build_id_segments.
Definition ex_notes1 : list note := [Note [65; 0] [9] 3; Note [71; 78; 85; 0] [1; 2; 3] 3; Note [71; 78; 85; 0] [7] 3].
Definition ex_b1 : bytes := concat (map (note_bytes true 4) ex_notes1).
Definition ex_l : list (nsec * bytes * list note) := [(NSec false true 0 None None, [], []); (NSec true true 4096 None (Some (NData ELF_T_NHDR (bmem ex_b1) (zlen ex_b1))), ex_b1, ex_notes1)].
Example C83_build_id_nonvacuous : Forall (fun x => match x with (s, b, ns) => has_notes true s b ns /\ (length ns < 9)%nat end) ex_l /\ find_elf_build_id 9 true false (map (fun x => fst (fst x)) ex_l) None = Ok (1, Some (1%nat, (36, 4132, 3))) /\ find_elf_build_id 9 true true [] (Some (map (fun x => fst (fst x)) ex_l)) = Ok (1, Some (1%nat, (36, 4132, 3))).
Proof.
  split; [|vm_compute; split; reflexivity]. apply Forall_cons; [|apply Forall_cons; [|apply Forall_nil]].
  - split; [|cbn; lia]. left. split; [left; reflexivity|reflexivity].
  - split; [|cbn; lia]. right. split; [reflexivity|]. exists ELF_T_NHDR, []. split; [reflexivity|]. split; [left; reflexivity|]. split; [repeat constructor; unfold is_u32; cbn; lia|]. split; [constructor|]. split; [reflexivity|]. split; [rewrite app_nil_r; reflexivity|vm_compute; reflexivity].
Qed.

(* whatever the bytes of the sections or segments are (less than 2 GiB each): the search ends, reads nothing
   outside them, and what is reported is inside one of them.  Missing: larger ones *)
Theorem C83_id_safe_partial : forall fuel le secs phdrs, Forall (fun s => forall d, n_data s = Some d -> note_type (d_ty d) /\ mem_ok (d_mem d) /\ 0 <= d_size d < two31 /\ d_size d / 12 + 1 < Z.of_nat fuel) (secs ++ match phdrs with Some l => l | None => [] end) ->
  exists r x, elf_gnu_build_id fuel le secs phdrs = Ok (r, x) /\
    match x with
    | None => r = 0 \/ (r = -1 /\ secs = [] /\ phdrs = None)
    | Some (i, (pos, addr, len)) => r = len /\ exists s d, nth_error (match secs with [] => match phdrs with Some l => l | None => [] end | _ => secs end) i = Some s /\ n_note s = true /\ n_data s = Some d /\ 0 <= pos /\ 0 <= len /\ pos + len <= d_size d
    end.
Proof.
  intros fuel le secs phdrs F.
  assert (K : forall l i, Forall (fun s => forall d, n_data s = Some d -> note_type (d_ty d) /\ mem_ok (d_mem d) /\ 0 <= d_size d < two31 /\ d_size d / 12 + 1 < Z.of_nat fuel) l ->
    exists x, find_ids fuel le false i l = Ok x /\ match x with None => True | Some (k, (pos, addr, len)) => (i <= k)%nat /\ exists s d, nth_error l (k - i) = Some s /\ n_note s = true /\ n_data s = Some d /\ 0 <= pos /\ 0 <= len /\ pos + len <= d_size d end).
  { induction l as [|s l IH]; intros i FL; cbn [find_ids]; [exists None; auto|]. apply Forall_cons_iff in FL. destruct FL as (H & FL).
    assert (SK : exists x, find_ids fuel le false (S i) l = Ok x /\ match x with None => True | Some (k, (pos, addr, len)) => (i <= k)%nat /\ exists s' d, nth_error (s :: l) (k - i) = Some s' /\ n_note s' = true /\ n_data s' = Some d /\ 0 <= pos /\ 0 <= len /\ pos + len <= d_size d end).
    { destruct (IH (S i) FL) as (x & -> & X). exists x. split; [reflexivity|]. destruct x as [(k & ((pos & addr) & len))|]; [|exact I]. destruct X as (KI & X). split; [lia|]. replace (k - i)%nat with (S (k - S i)) by lia. exact X. }
    destruct (n_note s) eqn:NN; [|exact SK]. destruct (n_data s) as [d|] eqn:DD; [|exact SK]. destruct (H d eq_refl) as (T & M & S & FU). destruct (C22_iteration_terminates_partial le (d_ty d) (d_mem d) (d_size d) T M ltac:(lia) fuel FU) as (rs & IT & _). destruct (check_iter fuel le d (note_vaddr false s) 0 rs T M ltac:(lia) ltac:(lia) IT) as (W & CN). rewrite CN. cbn [obind].
    destruct (find (idp (d_mem d)) rs) as [((h & nm) & p)|] eqn:FD; cbn [option_map shown]; [|exact SK]. apply find_some in FD. destruct FD as (I & _). pose proof (proj1 (Forall_forall _ _) W _ I) as (_ & _ & _ & W4 & W5 & W6). eexists. split; [reflexivity|]. split; [lia|]. exists s, d. rewrite Nat.sub_diag. assert (SL : s32 (nh_descsz h) = nh_descsz h) by (unfold s32; rewrite Z.mod_small; lia). rewrite SL. repeat split; auto; lia. }
  apply Forall_app in F. destruct F as (F1 & F2). unfold elf_gnu_build_id, find_elf_build_id. destruct secs as [|s secs].
  - destruct phdrs as [l|]; [|exists (-1), None; split; [reflexivity|auto]]. destruct (K l 0%nat F2) as (x & -> & X). cbn [obind]. destruct x as [(k & ((pos & addr) & len))|]; [|exists 0, None; auto]. destruct X as (_ & X). rewrite Nat.sub_0_r in X. do 2 eexists. split; [reflexivity|]. split; [reflexivity|exact X].
  - destruct (K (s :: secs) 0%nat F1) as (x & -> & X). cbn [obind]. destruct x as [(k & ((pos & addr) & len))|]; [|exists 0, None; auto]. destruct X as (_ & X). rewrite Nat.sub_0_r in X. do 2 eexists. split; [reflexivity|]. split; [reflexivity|exact X].
Qed.
Print Assumptions C83_id_safe_partial.
Example C83_id_safe_partial_nonvacuous : elf_gnu_build_id 9 true [NSec true true 0 None (Some (NData ELF_T_NHDR (bmem [4; 0; 0; 0; 255; 255; 0; 0; 3; 0; 0; 0; 71; 78; 85; 0; 1; 2]) 18))] None = Ok (0, None) /\ elf_gnu_build_id 9 true (map (fun x => fst (fst x)) ex_l) None = Ok (3, Some (1%nat, (36, 4132, 3))).
Proof. vm_compute. auto. Qed.
(* a build ID of 2 GiB: its length is returned as a negative number *)
Theorem C83_long_refuted : exists m size, mem_ok m /\ 0 <= size < two32 /\ elf_gnu_build_id 1 true [NSec true true 0 None (Some (NData ELF_T_NHDR m size))] None = Ok (-2147483648, Some (0%nat, (16, 16, -2147483648))).
Proof.
  exists (bmem [4; 0; 0; 0; 0; 0; 0; 128; 3; 0; 0; 0; 71; 78; 85; 0]), 2147483664. split; [|split; [lia|vm_compute; reflexivity]]. intros x. unfold bmem. destruct (nth_in_or_default (Z.to_nat x) [4; 0; 0; 0; 0; 0; 0; 128; 3; 0; 0; 0; 71; 78; 85; 0] 0) as [I|E]; [|rewrite E; unfold is_u8; lia]. cbn [In] in I. unfold is_u8. lia.
Qed.
Print Assumptions C83_long_refuted.
