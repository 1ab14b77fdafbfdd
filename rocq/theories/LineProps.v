(* C37: line tables; C53: the line of an address. *)
From Verif Require Import Base LebModel LebSpec LebProof DwModel Slice CfiSpec CfiModel CfiProof CfiSafe FormModel FormSpec FormProps SegProof ArangeProps LineModel LineSpec Line5Spec LineProof Line5Proof LineSafe.
Require Import ZArith List Lia Bool ZifyBool Permutation Sorting.Sorted. Import ListNotations. Open Scope Z_scope.

(* The directories, and the files the header gives, as delivered.  Versions up to 4 number the
   files from 1: number 0 is a placeholder. *)
Definition all_dirs (c : lctx) (ver : Z) (dirs : list bytes) : list (option bytes) := if 5 <=? ver then map Some dirs else n_comp c :: map Some dirs.
Definition header_files (c : lctx) (ver : Z) (dirs : list bytes) (files : list source) : list fileinfo :=
  if 5 <=? ver then match files with [] => [null_file] | _ => map (info5 (all_dirs c ver dirs)) files end
  else null_file :: map (info (all_dirs c ver dirs)) files.
Definition tables_bytes (c : lctx) (osize ver : Z) (dirs : list bytes) (files : list source) (tabs : bytes) : Prop :=
  if 5 <=? ver then tables_new (FormSpec.Params (n_fle c) (n_asize c) osize 5) (n_str c) (n_lstr c) dirs files tabs else LineSpec.tables_old dirs files tabs.

(* Whatever line table stands at the offset - any version, offset size, byte order, parameters,
   tables and program - the rows, files and directories are the ones of the standard's machine.
   Missing from the full property: advances and operands beyond 32 bits (refuted below), address
   or line registers that wrap on the way, units of 4 GiB and more in version 5, times and
   lengths in version 5. *)
Theorem C37_table_partial : forall qs c t off osize ver h dirs files tabs ps, sorter qs -> (n_asize c = 4 \/ n_asize c = 8) -> zlen (n_mem c) < two63 -> 2 <= ver <= 5 -> params_ok ver h ->
  tables_bytes c osize ver dirs files tabs -> zlen (all_dirs c ver dirs) < two32 -> Forall (fun f => 0 <= dir f < zlen (all_dirs c ver dirs)) files ->
  program (n_fle c) (n_asize c) h ps -> Forall (usual h (all_dirs c ver dirs)) (map fst ps) -> Forall short (map snd ps) -> tame_run h (map fst ps) (initial h, [], []) ->
  unit_size_ok osize (zlen (body_of (n_fle c) osize (n_asize c) ver h tabs (program_bytes ps))) -> (ver < 5 \/ zlen (body_of (n_fle c) osize (n_asize c) ver h tabs (program_bytes ps)) < two32) ->
  at_ (n_mem c) off (unit_bytes (n_fle c) osize (n_asize c) ver h tabs (program_bytes ps)) -> find (fun x => fst x =? off) t = None ->
  let '(_, rows, fs) := exec_all h (map fst ps) (initial h, [], []) in
  if forallb fits rows
  then exists lines, result_ok c rows lines /\
       let r := (lines, header_files c ver dirs files ++ map (info (all_dirs c ver dirs)) fs, all_dirs c ver dirs) in getsrclines qs c t off = Ok (r, (off, r) :: t)
  else getsrclines qs c t off = Err DWARF_E_INVALID_DEBUG_LINE.
Proof.
  intros qs c t off osize ver h dirs files tabs ps Q AS M V PO T DL D P U SH TR SZ S5 A F.
  assert (OS : osize = 4 \/ osize = 8) by (destruct SZ; lia).
  destruct (header_ok c off osize ver h tabs (program_bytes ps) (all_dirs c ver dirs) (header_files c ver dirs files) AS M V PO SZ A) as (std & p' & RH & AL & AP).
  { intros q e AT E1 E2 E3. unfold tables_bytes, all_dirs, header_files, all_dirs in *. destruct (5 <=? ver) eqn:V5.
    - assert (ZD : zlen (map (@Some bytes) dirs) = zlen dirs) by (unfold zlen; rewrite map_length; reflexivity). unfold bytes in *. rewrite ZD in DL. apply (tables5_ok c q e osize AS OS E2 M ltac:(lia) dirs files tabs T DL); [|exact AT|exact E1].
      eapply Forall_impl; [|exact D]. intros f X. cbn beta in X. rewrite ZD in X. exact X.
    - assert (ZD : zlen (n_comp c :: map Some dirs) = zlen dirs + 1) by (rewrite zlen_cons; unfold zlen; rewrite map_length; lia). rewrite ZD in DL. apply (tables_old_ok c dirs files tabs q e T DL); [|exact AT|exact E1|exact E2].
      eapply Forall_impl; [|exact D]. intros f X. cbn beta in X. rewrite ZD in X. lia. }
  assert (CO : ctx_ok c h std (all_dirs c ver dirs)).
  { destruct PO as (PM & PX & PB & PR & PO & PL & PLB). unfold is_u8 in *. unfold ctx_ok. split; [exact AS|]. split; [exact M|]. split; [exact DL|]. split; [exact AL|]. split; [lia|]. split; [destruct (4 <=? ver); lia|]. lia. }
  pose proof (srclines_ok qs c h std (all_dirs c ver dirs) _ off p' ps Q CO RH P U SH AP TR) as R. destruct (exec_all h (map fst ps) (initial h, [], [])) as [[r rows] fs].
  assert (OI : offset_in_section (Some (n_mem c)) off 1 = Ok tt).
  { destruct (at_bound _ _ _ A) as [O0 O1]. unfold unit_bytes in O1. rewrite zlen_app in O1. pose proof (zlen_nonneg _ (body_of (n_fle c) osize (n_asize c) ver h tabs (program_bytes ps))) as B. unfold body_of in B. 
    assert (4 <= zlen (length_bytes (n_fle c) osize (zlen (body_of (n_fle c) osize (n_asize c) ver h tabs (program_bytes ps))))) as L4 by (unfold length_bytes; destruct OS as [-> | ->]; cbn [Z.eqb Pos.eqb]; [rewrite zlen_enc by lia; lia|rewrite zlen_app, !zlen_enc by lia; lia]). unfold body_of in L4.
    unfold offset_in_section. match goal with |- (if ?b then _ else _) = _ => replace b with false by lia end. reflexivity. }
  destruct (forallb fits rows).
  - destruct R as (lines & R & RO). exists lines. split; [exact RO|]. unfold getsrclines. rewrite F, OI. cbn [obind]. rewrite R. reflexivity.
  - unfold getsrclines. rewrite F, OI. cbn [obind]. rewrite R. reflexivity.
Qed.
Print Assumptions C37_table_partial.

(* A table that was read once is delivered unchanged ever after, whatever else is read. *)
Theorem C37_stable : forall qs c t off r t', getsrclines qs c t off = Ok (r, t') ->
  getsrclines qs c t' off = Ok (r, t') /\ forall off' r' t'', getsrclines qs c t' off' = Ok (r', t'') -> getsrclines qs c t'' off = Ok (r, t'').
Proof.
  intros qs c t off r t' G. assert (X : find (fun x => fst x =? off) t' = Some (off, r)).
  { unfold getsrclines in G. destruct (find (fun x => fst x =? off) t) as [[o r0]|] eqn:F.
    - injection G as -> ->. rewrite F. apply find_some in F as [_ F]. cbn in F. apply Z.eqb_eq in F. subst o. reflexivity.
    - destruct (offset_in_section _ _ _) as [[]| | |]; try discriminate. cbn [obind] in G. destruct (read_srclines qs c off) as [r0| | |]; try discriminate. cbn [obind] in G. injection G as -> <-. cbn [find fst]. rewrite Z.eqb_refl. reflexivity. }
  split; [unfold getsrclines; rewrite X; reflexivity|]. intros off' r' t'' G'. unfold getsrclines in G'. destruct (find (fun x => fst x =? off') t') as [[o r0]|] eqn:F.
  - injection G' as _ <-. unfold getsrclines. rewrite X. reflexivity.
  - destruct (offset_in_section _ _ _) as [[]| | |]; try discriminate. cbn [obind] in G'. destruct (read_srclines qs c off') as [r0| | |]; try discriminate. cbn [obind] in G'. injection G' as _ <-. unfold getsrclines. cbn [find fst].
    destruct (off' =? off) eqn:E; [apply Z.eqb_eq in E; subst off'; congruence|]. rewrite X. reflexivity.
Qed.
Print Assumptions C37_stable.

(* On any input at all, a delivered table is in the order of addresses and closed by an end. *)
Definition table_ok (lines : list line) : Prop :=
  (forall i j x y, i < j -> znth lines i = Some x -> znth lines j = Some y -> n_addr x <= n_addr y) /\
  (forall x, znth lines (zlen lines - 1) = Some x -> n_end x = true).
Lemma mark_last_addr : forall l, map n_addr (mark_last l) = map n_addr l.
Proof.
  intro l. unfold mark_last. destruct (rev l) as [|x r] eqn:E; [rewrite <- (rev_involutive l), E; reflexivity|]. rewrite <- (rev_involutive l), E. cbn [rev]. rewrite !map_app. reflexivity.
Qed.
Lemma mark_last_end : forall l x, znth (mark_last l) (zlen (mark_last l) - 1) = Some x -> n_end x = true.
Proof.
  intros l x. unfold mark_last. destruct (rev l) as [|z r]; [discriminate|]. cbn [rev]. rewrite zlen_app. change (zlen [_]) with 1. rewrite znth_app_r by lia. replace (zlen (rev r) + 1 - 1 - zlen (rev r)) with 0 by lia. intro X. injection X as <-. reflexivity.
Qed.
Lemma compare_addr : forall a b, compare_lines a b <= 0 -> n_addr (snd a) <= n_addr (snd b).
Proof. intros [i x] [j y] C. unfold compare_lines in C. cbn [snd]. destruct (n_addr x =? n_addr y) eqn:E; cbn [negb] in C; [lia|]. destruct (n_addr x <? n_addr y) eqn:L; lia. Qed.
Lemma sorted_nth : forall l, StronglySorted Z.le l -> forall i j x y, i < j -> znth l i = Some x -> znth l j = Some y -> x <= y.
Proof.
  induction 1 as [|a l SS IH F]; intros i j x y L X Y; [unfold znth in X; destruct ((0 <=? i) && (i <? zlen (@nil Z))); [destruct (Z.to_nat i); discriminate|discriminate]|].
  assert (I0 : 0 <= i) by (unfold znth in X; destruct (0 <=? i) eqn:Q; [lia|discriminate]). rewrite SegProof.znth_cons in X, Y by lia. replace (j =? 0) with false in Y by lia. destruct (i =? 0) eqn:I.
  - injection X as <-. unfold znth in Y. destruct (_ && _); [|discriminate]. apply nth_error_In in Y. rewrite Forall_forall in F. exact (F y Y).
  - apply (IH (i - 1) (j - 1)); [lia|exact X|exact Y].
Qed.
Lemma znth_map_addr : forall l i x, znth l i = Some x -> znth (map n_addr l) i = Some (n_addr x).
Proof. intros l i x H. unfold znth in *. unfold zlen in *. rewrite map_length. destruct (_ && _); [|discriminate]. rewrite nth_error_map, H. reflexivity. Qed.
Theorem C37_order : forall qs c off lines files dirs, sorter qs -> read_srclines qs c off = Ok (lines, files, dirs) -> table_ok lines.
Proof.
  intros qs c off lines files dirs Q R. unfold read_srclines in R. destruct (read_header c off) as [[[[h f] p] e]| | |]; try discriminate. cbn [obind] in R. destruct (run _ _ _ _ _ _) as [s| | |]; try discriminate. cbn [obind] in R. injection R as <- _ _.
  split; [|apply mark_last_end]. set (l := qs _). assert (SS : StronglySorted Z.le (map n_addr (map snd l))).
  { unfold l. clear l. match goal with |- context [qs ?x] => destruct (Q x) as [_ SS]; revert SS; generalize (qs x) end. intros l SS. induction SS as [|a l SS IH F]; [constructor|]. cbn [map]. constructor; [exact IH|]. rewrite Forall_map, Forall_map. eapply Forall_impl; [|exact F]. intros b. apply compare_addr. }
  rewrite <- mark_last_addr in SS. intros i j x y L X Y. exact (sorted_nth _ SS i j _ _ L (znth_map_addr _ _ _ X) (znth_map_addr _ _ _ Y)).
Qed.
Print Assumptions C37_order.

(* C53.  Looking up an address in any such table ends, reads nothing outside it, and gives the
   last line at or below the address, unless that is an end. *)
Definition is_line_of (lines : list line) (a k : Z) : Prop :=
  exists x, znth lines k = Some x /\ n_addr x <= a /\ n_end x = false /\ forall j y, k < j -> znth lines j = Some y -> a < n_addr y.
Lemma search_ok : forall lines a, table_ok lines -> forall fuel l u, 0 <= l -> u < zlen lines -> l <= u -> u - l <= Z.of_nat fuel ->
  (forall j y, u < j -> znth lines j = Some y -> a < n_addr y) -> (l = 0 \/ forall y, znth lines l = Some y -> n_addr y <= a) ->
  exists k, src_search fuel lines a l u = Ok k /\ 0 <= k < zlen lines /\ (forall j y, k < j -> znth lines j = Some y -> a < n_addr y) /\ (k = 0 \/ forall y, znth lines k = Some y -> n_addr y <= a).
Proof.
  intros lines a [SO _]. induction fuel as [|n IH]; intros l u L0 UL LU FU HI LO.
  - cbn. replace (l <? u) with false by lia. exists l. split; [reflexivity|]. split; [lia|]. split; [|exact LO]. intros j y J. apply HI. lia.
  - cbn [src_search]. destruct (l <? u) eqn:LT; [|exists l; split; [reflexivity|]; split; [lia|]; split; [|exact LO]; intros j y J; apply HI; lia].
    set (i := u - (u - l) / 2). assert (I : l < i <= u) by (unfold i; pose proof (Z.div_lt (u - l) 2 ltac:(lia) ltac:(lia)); pose proof (Z.div_pos (u - l) 2 ltac:(lia) ltac:(lia)); lia). clearbody i.
    destruct (Base.znth_in _ lines i ltac:(lia)) as [x X]. rewrite X. destruct (a <? n_addr x) eqn:AX.
    + apply IH; [lia|lia|lia|lia| |exact LO]. intros j y J Y. destruct (Z.eq_dec j i) as [->|]; [rewrite X in Y; injection Y as <-; lia|]. pose proof (SO i j x y ltac:(lia) X Y). lia.
    + apply IH; [lia|lia|lia|lia|exact HI|]. right. intros y Y. rewrite X in Y. injection Y as <-. lia.
Qed.
Theorem C53_line : forall lines a, table_ok lines ->
  match getsrc_die lines a with
  | Ok k => is_line_of lines a k
  | Err e => e = DWARF_E_ADDR_OUTOFRANGE /\ forall k, ~ is_line_of lines a k
  | _ => False
  end.
Proof.
  intros lines a T. pose proof T as [SO EN]. unfold getsrc_die. destruct (0 <? zlen lines) eqn:Z0.
  - destruct (search_ok lines a T (length lines) 0 (zlen lines - 1)) as (k & -> & K & HI & LO); [lia|lia|lia|unfold zlen; lia|intros j y J Y; apply SegProof.znth_in in Y; lia|left; reflexivity|]. cbn [obind].
    destruct (Base.znth_in _ lines (zlen lines - 1) ltac:(lia)) as [z ZE]. destruct (Base.znth_in _ lines k K) as [x X]. rewrite ZE, X, (EN z ZE). cbn [negb].
    destruct (n_end x) eqn:E; cbn [negb andb]; [|destruct (n_addr x <=? a) eqn:AX; [exists x; split; [exact X|]; split; [lia|]; split; [exact E|exact HI]|]].
    + split; [reflexivity|]. intros j (y & Y & YA & YE & YH). destruct (Z.lt_trichotomy j k) as [J|[->|J]]; [|congruence|specialize (HI j y J Y); lia]. specialize (YH k x J X). destruct LO as [->|LO]; [apply SegProof.znth_in in Y; lia|]. specialize (LO x X). lia.
    + split; [reflexivity|]. intros j (y & Y & YA & YE & YH). destruct (Z.lt_trichotomy j k) as [J|[->|J]]; [|rewrite X in Y; injection Y as <-; lia|specialize (HI j y J Y); lia]. destruct LO as [->|LO]; [apply SegProof.znth_in in Y; lia|]. specialize (LO x X). lia.
  - split; [reflexivity|]. intros k (x & X & _). apply SegProof.znth_in in X. lia.
Qed.
Print Assumptions C53_line.
Corollary C53_any : forall qs c off lines files dirs a, sorter qs -> read_srclines qs c off = Ok (lines, files, dirs) ->
  match getsrc_die lines a with Ok k => is_line_of lines a k | Err e => e = DWARF_E_ADDR_OUTOFRANGE /\ forall k, ~ is_line_of lines a k | _ => False end.
Proof. intros qs c off lines files dirs a Q R. apply C53_line. exact (C37_order _ _ _ _ _ _ Q R). Qed.
Print Assumptions C53_any.

(* The line found is the row of the program that is in force at the address, for programs whose
   sequences are ascending and do not overlap; no line is found for other addresses. *)
Lemma numbered_nth : forall rows i w, In (i, w) (numbered rows) <-> nth_error rows i = Some w.
Proof.
  intros rows i w. unfold numbered. assert (G : forall rows k, In (i, w) (combine (seq k (length rows)) rows) <-> (k <= i)%nat /\ nth_error rows (i - k) = Some w).
  { clear rows. induction rows as [|r rows IH]; intro k; cbn [length seq combine In]; [split; [tauto|]; intros [_ X]; destruct (i - k)%nat; discriminate|]. rewrite IH. split.
    - intros [X|[X Y]]; [injection X as <- <-; split; [lia|]; replace (k - k)%nat with 0%nat by lia; reflexivity|]. split; [lia|]. replace (i - k)%nat with (S (i - S k)) by lia. exact Y.
    - intros [X Y]. destruct (Nat.eq_dec i k) as [->|]; [left; replace (k - k)%nat with 0%nat in Y by lia; injection Y as <-; reflexivity|]. right. split; [lia|]. replace (i - k)%nat with (S (i - S k)) in Y by lia. exact Y. }
  rewrite G. replace (i - 0)%nat with i by lia. split; [tauto|]. intro X. split; [lia|exact X].
Qed.
Lemma concat_nth : forall A (l : list (list A)) i (x : A), nth_error (concat l) i = Some x -> exists m s k, nth_error l m = Some s /\ nth_error s k = Some x /\ i = (length (concat (firstn m l)) + k)%nat.
Proof.
  intros A l. induction l as [|s l IH]; intros i x X; [destruct i; discriminate|]. cbn [concat] in X. destruct (Nat.lt_ge_cases i (length s)) as [L|L].
  - rewrite nth_error_app1 in X by exact L. exists 0%nat, s, i. auto.
  - rewrite nth_error_app2 in X by exact L. apply IH in X as (m & s' & k & M & K & E). exists (S m), s', k. split; [exact M|]. split; [exact K|]. cbn [firstn concat]. rewrite app_length. lia.
Qed.
Lemma nth_concat : forall A (l : list (list A)) m s k (x : A), nth_error l m = Some s -> nth_error s k = Some x -> nth_error (concat l) (length (concat (firstn m l)) + k) = Some x.
Proof.
  intros A l. induction l as [|s0 l IH]; intros m s k x M K; [destruct m; discriminate|]. destruct m as [|m].
  - injection M as ->. cbn [firstn concat length plus]. rewrite nth_error_app1; [exact K|]. apply nth_error_Some. congruence.
  - cbn [firstn concat]. rewrite app_length, nth_error_app2 by lia. replace (length s0 + length (concat (firstn m l)) + k - length s0)%nat with (length (concat (firstn m l)) + k)%nat by lia. exact (IH m s k x M K).
Qed.
Lemma seq_facts : forall s, sequence s -> (forall k w, nth_error s k = Some w -> (S k < length s)%nat -> r_end w = false) /\
  exists z, In z s /\ r_end z = true /\ forall x, In x s -> r_end x = false -> address (r_regs x) < address (r_regs z).
Proof.
  intros s (b & z & -> & F & Z0 & SO). split.
  - intros k w K L. rewrite app_length in L. cbn in L. rewrite nth_error_app1 in K by lia. apply nth_error_In in K. rewrite Forall_forall in F. exact (proj1 (F w K)).
  - exists z. split; [apply in_or_app; right; left; reflexivity|]. split; [exact Z0|]. intros x X E. apply in_app_or in X as [X|[<-|[]]]; [|congruence]. rewrite Forall_forall in F. exact (proj2 (F x X)).
Qed.
(* every other row at or below the address comes before the row of the address *)
Lemma row_of_last : forall seqs a w, sequences seqs -> row_of seqs a w -> exists i, nth_error (concat seqs) i = Some w /\ r_end w = false /\
  (forall j x, j <> i -> nth_error (concat seqs) j = Some x -> address (r_regs x) <= a -> row_before (j, x) (i, w)) /\ exists j x, nth_error (concat seqs) j = Some x /\ a < address (r_regs x).
Proof.
  intros seqs a w [SQ AP] (s & k & w' & IN & K & K' & A). apply In_nth_error in IN as [m M]. exists (length (concat (firstn m seqs)) + k)%nat. rewrite Forall_forall in SQ.
  assert (LW : (S k < length s)%nat) by (apply nth_error_Some; congruence). pose proof (seq_facts s (SQ s (nth_error_In _ _ M))) as [SE _]. pose proof (SE k w K LW) as WE.
  split; [exact (nth_concat _ _ _ _ _ _ M K)|]. split; [exact WE|]. split.
  2:{ exists (length (concat (firstn m seqs)) + S k)%nat, w'. split; [exact (nth_concat _ _ _ _ _ _ M K')|lia]. }
  intros j x J X AX. apply concat_nth in X as (m' & t & k' & M' & KX & ->). unfold row_before. cbn [fst snd]. destruct (Nat.eq_dec m' m) as [->|NM].
  - rewrite M in M'. injection M' as <-. assert (K3 : k' <> k) by (intros ->; apply J; reflexivity). destruct (SQ s (nth_error_In _ _ M)) as (b & z & _ & _ & _ & SO).
    destruct (Nat.lt_ge_cases k' k) as [L|L].
    + pose proof (SO k' k x w L KX K) as LE. rewrite (SE k' x KX) by lia. rewrite WE. destruct (Z.eq_dec (address (r_regs x)) (address (r_regs w))); [right; split; [assumption|]; right; split; [reflexivity|lia]|left; lia].
    + destruct (Nat.eq_dec k' (S k)) as [->|]; [rewrite KX in K'; injection K' as ->; lia|]. pose proof (SO (S k) k' w' x ltac:(lia) K' KX). lia.
  - pose proof (AP m' m t s NM M' M) as [C|C].
    + pose proof (C x w (nth_error_In _ _ KX) (nth_error_In _ _ K)) as LE. destruct (Z.eq_dec (address (r_regs x)) (address (r_regs w))) as [E|]; [|left; lia]. right. split; [exact E|]. destruct (r_end x) eqn:EX; [left; split; [reflexivity|exact WE]|].
      destruct (seq_facts t (SQ t (nth_error_In _ _ M'))) as (_ & z & ZI & ZE & ZL). pose proof (ZL x (nth_error_In _ _ KX) EX). pose proof (C z w ZI (nth_error_In _ _ K)). lia.
    + pose proof (C x w' (nth_error_In _ _ KX) (nth_error_In _ _ K')). lia.
Qed.
Lemma last_ends_nth : forall l k w, nth_error l k = Some w -> (S k < length l)%nat -> nth_error (last_ends l) k = Some w.
Proof.
  induction l as [|x l IH]; intros k w K L; [destruct k; discriminate|]. destruct l as [|y l]; [cbn in L; lia|]. cbn [last_ends]. destruct k as [|k]; [exact K|]. exact (IH k w K ltac:(cbn in L |- *; lia)).
Qed.
Lemma last_ends_addr : forall l, map (fun w => address (r_regs w)) (last_ends l) = map (fun w => address (r_regs w)) l.
Proof. induction l as [|x l IH]; [reflexivity|]. destruct l as [|y l]; [reflexivity|]. cbn [last_ends map] in *. rewrite IH. reflexivity. Qed.
Lemma nat_znth : forall A (l : list A) k, znth l (Z.of_nat k) = nth_error l k.
Proof.
  intros A l k. unfold znth, zlen. destruct (Nat.lt_ge_cases k (length l)).
  - replace ((0 <=? Z.of_nat k) && (Z.of_nat k <? Z.of_nat (length l))) with true by lia. rewrite Nat2Z.id. reflexivity.
  - replace ((0 <=? Z.of_nat k) && (Z.of_nat k <? Z.of_nat (length l))) with false by lia. symmetry. apply nth_error_None. assumption.
Qed.
Lemma sorted_pairs : forall (A : Type) (R : A -> A -> Prop) l, StronglySorted R l -> forall i j x y, (i < j)%nat -> nth_error l i = Some x -> nth_error l j = Some y -> R x y.
Proof.
  intros A R l. induction 1 as [|a l SS IH F]; intros i j x y L X Y; [destruct i; discriminate|]. destruct j as [|j]; [lia|]. destruct i as [|i].
  - injection X as <-. rewrite Forall_forall in F. cbn in Y. exact (F y (nth_error_In _ _ Y)).
  - exact (IH i j x y ltac:(lia) X Y).
Qed.
Lemma before_asym : forall a b, row_before a b -> row_before b a -> False.
Proof. intros [i x] [j y]. unfold row_before. cbn [fst snd]. intros [|[E [[]|[]]]] [|[E' [[]|[]]]]; try lia; congruence. Qed.
Lemma result_table : forall c rows lines, result_ok c rows lines -> table_ok lines.
Proof.
  intros c rows lines (rs & PE & SS & ->). split.
  - intros i j x y L X Y. apply znth_map_addr in X. apply znth_map_addr in Y. rewrite map_map in X, Y. change (fun x => n_addr (shown x)) with (fun w : row => address (r_regs w)) in X, Y. rewrite last_ends_addr in X, Y. refine (sorted_nth _ _ i j _ _ L X Y).
    clear - SS. induction SS as [|a l SS IH F]; [constructor|]. cbn [map]. constructor; [exact IH|]. rewrite Forall_map, Forall_map. eapply Forall_impl; [|exact F]. intros b B. unfold row_before in B. lia.
  - intros x. rewrite <- mark_last_ok. apply mark_last_end.
Qed.
Lemma combine_fst : forall A (l : list A) n, map fst (combine (seq n (length l)) l) = seq n (length l).
Proof. induction l as [|r l IH]; intro n; [reflexivity|]. cbn. f_equal. apply IH. Qed.
(* In terms of the line program, for sequences which are ascending and disjoint (C53_overlap_refuted). *)
Theorem C53_program_partial : forall c seqs lines a, sequences seqs -> result_ok c (concat seqs) lines ->
  (forall w, row_of seqs a w -> exists k, getsrc_die lines a = Ok k /\ znth lines k = Some (shown w)) /\
  ((forall w, ~ row_of seqs a w) -> getsrc_die lines a = Err DWARF_E_ADDR_OUTOFRANGE).
Proof.
  intros c seqs lines a SQ R. pose proof (C53_line lines a (result_table _ _ _ R)) as G. pose proof R as (rs & PE & SS & LE).
  assert (NDL : forall i j x y, nth_error rs i = Some x -> nth_error rs j = Some y -> fst x = fst y -> i = j).
  { assert (ND : NoDup (map fst rs)).
    { eapply Permutation_NoDup; [apply Permutation_map; exact PE|]. unfold numbered. rewrite combine_fst. apply seq_NoDup. }
    intros i j x y X Y E. rewrite (NoDup_nth_error (map fst rs)) in ND. apply ND; [rewrite map_length; apply nth_error_Some; congruence|]. rewrite !nth_error_map, X, Y. cbn. rewrite E. reflexivity. }
  assert (W : forall w, row_of seqs a w -> exists k, is_line_of lines a (Z.of_nat k) /\ nth_error lines k = Some (shown w)).
  { intros w RO. destruct (row_of_last seqs a w SQ RO) as (i & I & WE & BE & j0 & x0 & J0 & A0). assert (RA : address (r_regs w) <= a) by (destruct RO as (s & k & w' & _ & _ & _ & X); lia).
    pose proof (proj2 (numbered_nth _ _ _) I) as IN. apply (Permutation_in _ PE) in IN. apply In_nth_error in IN as [k K].
    assert (UP : forall j y, (k < j)%nat -> nth_error rs j = Some y -> a < address (r_regs (snd y))).
    { intros j [jn y] J Y. cbn [snd]. destruct (Z.le_gt_cases (address (r_regs y)) a) as [L|]; [exfalso|lia]. pose proof (sorted_pairs _ _ _ SS k j _ _ J K Y) as B1.
      assert (JN : nth_error (concat seqs) jn = Some y) by (apply numbered_nth; apply (Permutation_in _ (Permutation_sym PE)); exact (nth_error_In _ _ Y)). refine (before_asym _ _ B1 (BE jn y _ JN L)). intros ->. pose proof (NDL k j _ _ K Y eq_refl). lia. }
    assert (KL : (S k < length rs)%nat).
    { pose proof (proj2 (numbered_nth _ _ _) J0) as IN. apply (Permutation_in _ PE) in IN. apply In_nth_error in IN as [k0 K0]. destruct (Nat.lt_trichotomy k0 k) as [L|[->|L]].
      - pose proof (sorted_pairs _ _ _ SS k0 k _ _ L K0 K) as B. unfold row_before in B. cbn [fst snd] in B. lia.
      - rewrite K in K0. injection K0 as _ ->. lia.
      - assert (k0 < length rs)%nat by (apply nth_error_Some; congruence). lia. }
    exists k. assert (LK : nth_error lines k = Some (shown w)).
    { rewrite LE, nth_error_map. rewrite (last_ends_nth (map snd rs) k w); [reflexivity|rewrite nth_error_map, K; reflexivity|rewrite map_length; exact KL]. }
    split; [|exact LK]. exists (shown w). split; [rewrite nat_znth; exact LK|]. split; [exact RA|]. split; [exact WE|]. intros j y J Y. assert (J1 : exists j', j = Z.of_nat j') by (exists (Z.to_nat j); lia). destruct J1 as [j' ->].
    pose proof (znth_map_addr _ _ _ Y) as YA. rewrite LE, map_map in YA. change (fun x => n_addr (shown x)) with (fun w : row => address (r_regs w)) in YA. rewrite last_ends_addr, nat_znth, nth_error_map, nth_error_map in YA.
    destruct (nth_error rs j') as [y'|] eqn:Y'; [|discriminate]. cbn in YA. injection YA as <-. exact (UP j' y' ltac:(lia) Y'). }
  split.
  - intros w RO. destruct (W w RO) as (k & IL & LK). destruct (getsrc_die lines a) as [k0|e| |]; [|destruct (proj2 G _ IL)|destruct G|destruct G]. exists k0. split; [reflexivity|]. destruct G as (x & X & XA & XE & XH). destruct IL as (y & Y & YA & YE & YH).
    destruct (Z.lt_trichotomy k0 (Z.of_nat k)) as [L|[->|L]]; [specialize (XH _ _ L Y); lia|rewrite nat_znth; exact LK|specialize (YH _ _ L X); lia].
  - intros NO. destruct (getsrc_die lines a) as [k0|e| |]; [|rewrite (proj1 G); reflexivity|destruct G|destruct G]. exfalso. destruct G as (x & X & XA & XE & XH).
    assert (K1 : exists k, k0 = Z.of_nat k) by (exists (Z.to_nat k0); apply SegProof.znth_in in X; lia). destruct K1 as [k ->]. rewrite nat_znth in X.
    (* the line comes from a row that is no end; its successor in its sequence is above a *)
    assert (XR : exists w, nth_error (map snd rs) k = Some w /\ address (r_regs w) <= a /\ r_end w = false).
    { rewrite LE, nth_error_map in X. destruct (nth_error (last_ends (map snd rs)) k) as [w0|] eqn:W0; [|discriminate]. cbn in X. injection X as <-. cbn in XA, XE.
      assert (G2 : forall l k w0, nth_error (last_ends l) k = Some w0 -> r_end w0 = false -> nth_error l k = Some w0).
      { clear. induction l as [|x l IH]; intros k w0 H E; [destruct k; discriminate|]. destruct l as [|y l]; [destruct k as [|[|k]]; cbn in H; try discriminate; injection H as <-; discriminate|]. destruct k as [|k]; [exact H|]. exact (IH k w0 H E). }
      exists w0. auto. }
    destruct XR as (w & WK & WA & WE). rewrite nth_error_map in WK. destruct (nth_error rs k) as [[i w1]|] eqn:RK; [|discriminate]. cbn in WK. injection WK as ->.
    assert (IW : nth_error (concat seqs) i = Some w) by (apply numbered_nth; apply (Permutation_in _ (Permutation_sym PE)); exact (nth_error_In _ _ RK)).
    pose proof IW as IW2. apply concat_nth in IW2 as (m & s & k' & M & K' & IE). pose proof SQ as [SF _]. rewrite Forall_forall in SF. pose proof (SF s (nth_error_In _ _ M)) as SSQ. destruct (seq_facts s SSQ) as [_ _]. 
    assert (LL : (S k' < length s)%nat).
    { destruct SSQ as (b & z & -> & _ & ZE & _). rewrite app_length in *. cbn [length]. assert (k' < length (b ++ [z]))%nat by (apply nth_error_Some; congruence). rewrite app_length in H. cbn in H. destruct (Nat.eq_dec k' (length b)) as [->|]; [|lia]. rewrite nth_error_app2 in K' by lia. replace (length b - length b)%nat with 0%nat in K' by lia. cbn in K'. congruence. }
    destruct (nth_error s (S k')) as [w'|] eqn:W'; [|apply nth_error_None in W'; lia].
    destruct (Z.lt_ge_cases a (address (r_regs w'))) as [L|L]; [apply (NO w); exists s, k', w'; split; [exact (nth_error_In _ _ M)|]; split; [exact K'|]; split; [exact W'|lia]|].
    (* the successor is at or below a: it comes before w in the order, yet follows it *)
    pose proof (nth_concat _ _ _ _ _ _ M W') as IW'. pose proof (proj2 (numbered_nth _ _ _) IW') as IN. apply (Permutation_in _ PE) in IN. apply In_nth_error in IN as [k2 K2].
    assert (K2L : (k2 <= k)%nat).
    { destruct (Nat.le_gt_cases k2 k) as [|L2]; [assumption|]. exfalso. assert (LR : exists y, znth lines (Z.of_nat k2) = Some y /\ n_addr y = address (r_regs w')).
      { assert (AD : znth (map n_addr lines) (Z.of_nat k2) = Some (address (r_regs w'))).
        { rewrite LE, map_map. change (fun x => n_addr (shown x)) with (fun w : row => address (r_regs w)). rewrite last_ends_addr, nat_znth, nth_error_map, nth_error_map, K2. reflexivity. }
        rewrite nat_znth, nth_error_map in AD. rewrite nat_znth. destruct (nth_error lines k2) as [y|]; [|discriminate]. exists y. split; [reflexivity|]. cbn in AD. injection AD as ->. reflexivity. }
      destruct LR as (y & Y & YA). specialize (XH (Z.of_nat k2) y ltac:(lia) Y). lia. }
    destruct SSQ as (b & z & SB & FB & ZE & SO). pose proof (SO k' (S k') w w' ltac:(lia) K' W') as MON.
    destruct (Nat.eq_dec k2 k) as [->|NK]; [rewrite RK in K2; injection K2 as X1 _; lia|]. pose proof (sorted_pairs _ _ _ SS k2 k _ _ ltac:(lia) K2 RK) as B. unfold row_before in B. cbn [fst snd] in B.
    destruct B as [B|[B [[B1 B2]|[B1 B2]]]]; [lia| |lia].
    (* w' would be the end at the address of w: excluded by strictness *)
    assert (WZ : address (r_regs w) < address (r_regs w')).
    { rewrite SB in K', W'. rewrite nth_error_app1 in K' by (rewrite SB, app_length in LL; cbn in LL; lia). rewrite Forall_forall in FB. pose proof (FB w (nth_error_In _ _ K')) as [_ FW]. destruct (Nat.eq_dec (S k') (length b)) as [E|NE].
      - rewrite nth_error_app2 in W' by lia. replace (S k' - length b)%nat with 0%nat in W' by lia. injection W' as <-. exact FW.
      - rewrite nth_error_app1 in W' by (rewrite SB, app_length in LL; cbn in LL; lia). pose proof (FB w' (nth_error_In _ _ W')) as [X1 _]. congruence. }
    lia.
Qed.
Print Assumptions C53_program_partial.

(* A sorting function, as qsort is assumed to be. *)
Definition leb_lines (a b : nat * line) : bool := compare_lines a b <=? 0.
Fixpoint ins (a : nat * line) (l : list (nat * line)) : list (nat * line) :=
  match l with [] => [a] | b :: r => if leb_lines a b then a :: b :: r else b :: ins a r end.
Definition isort (l : list (nat * line)) : list (nat * line) := fold_right ins [] l.
Lemma lines_total : forall a b, leb_lines a b = true \/ leb_lines b a = true.
Proof.
  intros [i x] [j y]. unfold leb_lines, compare_lines. rewrite (Z.eqb_sym (n_addr y)). destruct (n_addr x =? n_addr y) eqn:A; cbn [negb].
  - destruct (n_end x), (n_end y); cbn [Bool.eqb negb]; try (left; reflexivity); try (right; reflexivity); destruct (Nat.ltb_spec i j), (Nat.ltb_spec j i); try lia; auto.
  - destruct (Z.ltb_spec (n_addr x) (n_addr y)), (Z.ltb_spec (n_addr y) (n_addr x)); try lia; auto.
Qed.
Lemma lines_trans : forall a b d, compare_lines a b <= 0 -> compare_lines b d <= 0 -> compare_lines a d <= 0.
Proof.
  intros [i x] [j y] [k z]. unfold compare_lines. destruct (Z.eqb_spec (n_addr x) (n_addr y)) as [E|E], (Z.eqb_spec (n_addr y) (n_addr z)) as [F|F]; cbn [negb].
  - rewrite E, F, Z.eqb_refl. cbn [negb]. destruct (n_end x), (n_end y), (n_end z); cbn [Bool.eqb negb]; intros G H; try lia; destruct (Nat.ltb_spec i j), (Nat.ltb_spec j i), (Nat.ltb_spec j k), (Nat.ltb_spec k j), (Nat.ltb_spec i k), (Nat.ltb_spec k i); lia.
  - rewrite E. destruct (Z.eqb_spec (n_addr y) (n_addr z)); [congruence|]. cbn [negb]. auto.
  - rewrite <- F. destruct (Z.eqb_spec (n_addr x) (n_addr y)); [congruence|]. cbn [negb]. auto.
  - intros G H. destruct (Z.ltb_spec (n_addr x) (n_addr y)), (Z.ltb_spec (n_addr y) (n_addr z)); try lia. destruct (Z.eqb_spec (n_addr x) (n_addr z)); [lia|]. cbn [negb]. destruct (Z.ltb_spec (n_addr x) (n_addr z)); lia.
Qed.
Lemma isort_ok : sorter isort.
Proof.
  assert (I : forall a l, StronglySorted (fun a b => compare_lines a b <= 0) l -> Permutation (a :: l) (ins a l) /\ StronglySorted (fun a b => compare_lines a b <= 0) (ins a l)).
  { intros a l SS. induction SS as [|b l SS [P IH] F]; [split; [reflexivity|repeat constructor]|]. cbn [ins]. destruct (leb_lines a b) eqn:L.
    - unfold leb_lines in L. split; [reflexivity|]. constructor; [constructor; assumption|]. constructor; [lia|]. eapply Forall_impl; [|exact F]. intros d D. cbn beta in D. apply (lines_trans a b d); [lia|exact D].
    - split; [rewrite perm_swap; constructor; exact P|]. constructor; [exact IH|]. apply (Permutation_Forall P). constructor; [|exact F]. destruct (lines_total a b) as [X|X]; [congruence|]. unfold leb_lines in X. lia. }
  intro l. induction l as [|a l [P IH]]; [split; [reflexivity|constructor]|]. cbn [isort fold_right]. destruct (I a (isort l) IH) as [P' S']. split; [|exact S']. rewrite <- P'. constructor. exact P.
Qed.

(* A small header, and sections with one table. *)
Definition ex_h : params := Params 1 1 true (-5) 14 13 [0; 1; 1; 1; 1; 0; 0; 0; 1; 0; 0; 1].
Definition ex_c (asize : Z) (mem : bytes) (comp : option bytes) : lctx := LC mem true asize comp None (Some [0; 47; 115; 0; 98; 46; 99; 0]) None.
Definition ex_old (prog : bytes) : bytes := unit_bytes true 4 8 4 ex_h ([47; 105; 0] ++ [0] ++ ([97; 46; 99; 0; 1; 0; 0] ++ []) ++ [0]) prog.
Definition ex_prog : list (instr * bytes) :=
  [(Set_address 4096, [0; 9; 2] ++ enc true 8 4096); (Advance_line 9, [3; 9]); (Copy, [1]); (Special 75, [75]); (Define_file (Source [98] 0 7 8), [0; 6; 3; 98; 0; 0; 7; 8]); (Set_file 2, [4; 2]); (Advance_pc 16, [2; 16]); (Negate_stmt, [6]); (Copy, [1]); (Const_add_pc, [8]); (End_sequence, [0; 1; 1])].
Ltac leb_tac := vm_compute; repeat split; try (intro X; discriminate).
Ltac bytes_tac := unfold bytes_ok, is_u8; vm_compute; repeat (constructor; [split; [discriminate|reflexivity]|]); constructor.
Ltac std_tac := split; [cbn; lia|reflexivity].
Ltac ext_tac x b := lazymatch goal with |- instr_bytes ?le ?a ?h ?i ?l => change (instr_bytes le a h i (0 :: [1 + zlen b] ++ x :: b)); apply I_extended; [|leb_tac|cbn; lia] end.
Lemma ex_prog_ok : program true 8 ex_h ex_prog.
Proof.
  unfold program, ex_prog. repeat (apply Forall_cons; [cbn [fst snd]|]); [..|constructor].
  - ext_tac 2 (enc true 8 4096). apply X_address. cbn; lia.
  - apply I_advance_line; [std_tac|leb_tac].
  - apply I_copy; std_tac.
  - apply I_special; cbn; [lia|discriminate].
  - ext_tac 3 [98; 0; 0; 7; 8]. apply X_file. change [98; 0; 0; 7; 8] with ([98] ++ [0] ++ [0] ++ [7] ++ [8]). constructor; [split; [repeat constructor; discriminate|bytes_tac]|leb_tac..].
  - apply I_set_file; [std_tac|leb_tac].
  - apply I_advance_pc; [std_tac|leb_tac].
  - apply I_negate_stmt; std_tac.
  - apply I_copy; std_tac.
  - apply I_const_add_pc; [std_tac|discriminate].
  - ext_tac 1 (@nil Z). apply X_end.
Qed.
Lemma ex_params_ok : forall ver, ver = 4 \/ ver = 5 -> params_ok ver ex_h.
Proof. intros ver V. unfold params_ok, is_u8. cbn [minimum maximum base range opcode_base lengths ex_h]. replace (4 <=? ver) with true by lia. repeat split; try lia. bytes_tac. Qed.
Ltac at0_tac := split; [lia|]; split; [vm_compute; discriminate|vm_compute; reflexivity].

(* A version 4 table in which everything applies, and the lines found in it. *)
Example C37_nonvacuous : let c := ex_c 8 (ex_old (program_bytes ex_prog)) (Some [47; 99]) in
  (exists lines, result_ok c (snd (fst (exec_all ex_h (map fst ex_prog) (initial ex_h, [], [])))) lines /\ map n_addr lines = [4096; 4100; 4116; 4133] /\ map n_line lines = [10; 11; 11; 11] /\ map n_file lines = [1; 1; 2; 2] /\
     (let r := (lines, [null_file; File [47; 105; 47; 97; 46; 99] 0 0; File [47; 99; 47; 98] 7 8], [Some [47; 99]; Some [47; 105]]) in getsrclines isort c [] 0 = Ok (r, [(0, r)])) /\ getsrc_die lines 4115 = Ok 1 /\ getsrc_die lines 4133 = Err DWARF_E_ADDR_OUTOFRANGE).
Proof.
  intro c. pose proof (C37_table_partial isort c [] 0 4 4 ex_h [[47; 105]] [Source [97; 46; 99] 1 0 0] ([47; 105; 0] ++ [0] ++ ([97; 46; 99; 0; 1; 0; 0] ++ []) ++ [0]) ex_prog isort_ok) as T.
  match type of T with ?a -> _ => assert (H : a) by (right; reflexivity); specialize (T H); clear H end.
  match type of T with ?a -> _ => assert (H : a) by (vm_compute; reflexivity); specialize (T H); clear H end.
  match type of T with ?a -> _ => assert (H : a) by lia; specialize (T H); clear H end.
  match type of T with ?a -> _ => assert (H : a) by (apply ex_params_ok; lia); specialize (T H); clear H end.
  match type of T with ?a -> _ => assert (H : a) end.
  { apply (T_old [[47; 105]]); [repeat constructor; try discriminate; bytes_tac|]. constructor; [|discriminate|constructor]. change [97; 46; 99; 0; 1; 0; 0] with ([97; 46; 99] ++ [0] ++ [1] ++ [0] ++ [0]). constructor; [split; [repeat constructor; discriminate|bytes_tac]|leb_tac..]. }
  specialize (T H). clear H.
  match type of T with ?a -> _ => assert (H : a) by (vm_compute; reflexivity); specialize (T H); clear H end.
  match type of T with ?a -> _ => assert (H : a) by (constructor; [vm_compute; split; [discriminate|reflexivity]|constructor]); specialize (T H); clear H end.
  match type of T with ?a -> _ => assert (H : a) by exact ex_prog_ok; specialize (T H); clear H end.
  match type of T with ?a -> _ => assert (H : a) by (repeat (apply Forall_cons; [vm_compute; repeat split; try discriminate|]); apply Forall_nil); specialize (T H); clear H end.
  match type of T with ?a -> _ => assert (H : a) by (repeat (apply Forall_cons; [vm_compute; repeat split; try discriminate|]); apply Forall_nil); specialize (T H); clear H end.
  match type of T with ?a -> _ => assert (H : a) by (vm_compute; repeat split; try discriminate); specialize (T H); clear H end.
  match type of T with ?a -> _ => assert (H : a) by (left; split; [reflexivity|vm_compute; reflexivity]); specialize (T H); clear H end.
  match type of T with ?a -> _ => assert (H : a) by (left; reflexivity); specialize (T H); clear H end.
  match type of T with ?a -> _ => assert (H : a) by at0_tac; specialize (T H); clear H end.
  specialize (T eq_refl).
  set (v := exec_all ex_h (map fst ex_prog) (initial ex_h, [], [])) in *. remember v as v' eqn:V in *. unfold v in V. vm_compute in V. clear v. subst v'. cbn [fst snd].
  match type of T with if ?b then _ else _ => assert (FB : b = true) by (vm_compute; reflexivity); rewrite FB in T; clear FB end.
  destruct T as (lines & RO & G). exists lines. split; [exact RO|].
  assert (L : match getsrclines isort c [] 0 with Ok ((l, f, d), _) => map n_addr l = [4096; 4100; 4116; 4133] /\ map n_line l = [10; 11; 11; 11] /\ map n_file l = [1; 1; 2; 2] /\ f = [null_file; File [47; 105; 47; 97; 46; 99] 0 0; File [47; 99; 47; 98] 7 8] /\ getsrc_die l 4115 = Ok 1 /\ getsrc_die l 4133 = Err DWARF_E_ADDR_OUTOFRANGE | _ => False end) by (vm_compute; repeat split).
  rewrite G in L. cbv beta iota zeta in L. destruct L as (L1 & L2 & L3 & L4 & L5 & L6). split; [exact L1|]. split; [exact L2|]. split; [exact L3|]. split; [|split; assumption]. rewrite G. cbv zeta. rewrite L4. reflexivity.
Qed.

(* The tables of a version 5 header with strings in .debug_line_str, and its lines. *)
Definition ex_tabs5 : bytes := [zlen [(1, 31)]] ++ ([1] ++ [31] ++ []) ++ [1] ++ concat [enc true 4 1 ++ []] ++ [zlen [(1, 31); (2, 11)]] ++ ([1] ++ [31] ++ [2] ++ [11] ++ []) ++ [1] ++ concat [enc true 4 4 ++ enc true 1 0 ++ []].
Lemma ex_tabs5_ok : tables_new (FormSpec.Params true 8 4 5) None (Some [0; 47; 115; 0; 98; 46; 99; 0]) [[47; 115]] [Source [98; 46; 99] 0 0 0] ex_tabs5.
Proof.
  assert (T1 : text [47; 115]) by (split; [repeat constructor; discriminate|bytes_tac]). assert (T2 : text [98; 46; 99]) by (split; [repeat constructor; discriminate|bytes_tac]).
  apply (T_new _ _ _ _ _ [(1, 31)] [(1, 31); (2, 11)]).
  - constructor; [leb_tac|leb_tac|lia|vm_compute; tauto|constructor].
  - change ([1] ++ [31] ++ [2] ++ [11] ++ []) with ([1] ++ [31] ++ ([2] ++ [11] ++ [])). constructor; [leb_tac|leb_tac|lia|vm_compute; tauto|]. constructor; [leb_tac|leb_tac|lia|vm_compute; tauto|constructor].
  - reflexivity.
  - reflexivity.
  - leb_tac.
  - leb_tac.
  - discriminate.
  - discriminate.
  - left. left. reflexivity.
  - left. split; [left; reflexivity|right; left; reflexivity].
  - constructor; [|constructor]. exists None. apply (E_path _ _ _ 31 [] (Unsigned 1)); [apply (H_fixed (FormSpec.Params true 8 4 5) 31 4); [cbn; tauto|lia]| |constructor]. apply (Sp_line_strp _ _ [0; 47; 115; 0; 98; 46; 99; 0]); [reflexivity|exact T1|at0_tac].
  - constructor; [|constructor]. apply (E_path _ _ _ 31 [(2, 11)] (Unsigned 4)); [apply (H_fixed (FormSpec.Params true 8 4 5) 31 4); [cbn; tauto|lia]| |]. { apply (Sp_line_strp _ _ [0; 47; 115; 0; 98; 46; 99; 0]); [reflexivity|exact T2|at0_tac]. }
    apply (E_dir _ _ _ 11 []); [apply (H_fixed (FormSpec.Params true 8 4 5) 11 1); [cbn; tauto|lia]|left; reflexivity|constructor].
Qed.
Definition ex_new (prog : bytes) : bytes := unit_bytes true 4 8 5 ex_h ex_tabs5 prog.
Example C37_nonvacuous_5 : let c := ex_c 8 (ex_new (program_bytes ex_prog)) (Some [47; 99]) in
  exists lines, result_ok c (snd (fst (exec_all ex_h (map fst ex_prog) (initial ex_h, [], [])))) lines /\ map n_addr lines = [4096; 4100; 4116; 4133] /\
     (let r := (lines, [File [47; 115; 47; 98; 46; 99] 0 0; File [47; 115; 47; 98] 7 8], [Some [47; 115]]) in getsrclines isort c [] 0 = Ok (r, [(0, r)])).
Proof.
  intro c. pose proof (C37_table_partial isort c [] 0 4 5 ex_h [[47; 115]] [Source [98; 46; 99] 0 0 0] ex_tabs5 ex_prog isort_ok) as T.
  match type of T with ?a -> _ => assert (H : a) by (right; reflexivity); specialize (T H); clear H end.
  match type of T with ?a -> _ => assert (H : a) by (vm_compute; reflexivity); specialize (T H); clear H end.
  match type of T with ?a -> _ => assert (H : a) by lia; specialize (T H); clear H end.
  match type of T with ?a -> _ => assert (H : a) by (apply ex_params_ok; lia); specialize (T H); clear H end.
  match type of T with ?a -> _ => assert (H : a) by exact ex_tabs5_ok; specialize (T H); clear H end.
  match type of T with ?a -> _ => assert (H : a) by (vm_compute; reflexivity); specialize (T H); clear H end.
  match type of T with ?a -> _ => assert (H : a) by (constructor; [vm_compute; split; [discriminate|reflexivity]|constructor]); specialize (T H); clear H end.
  match type of T with ?a -> _ => assert (H : a) by exact ex_prog_ok; specialize (T H); clear H end.
  match type of T with ?a -> _ => assert (H : a) by (repeat (apply Forall_cons; [vm_compute; repeat split; try discriminate|]); apply Forall_nil); specialize (T H); clear H end.
  match type of T with ?a -> _ => assert (H : a) by (repeat (apply Forall_cons; [vm_compute; repeat split; try discriminate|]); apply Forall_nil); specialize (T H); clear H end.
  match type of T with ?a -> _ => assert (H : a) by (vm_compute; repeat split; try discriminate); specialize (T H); clear H end.
  match type of T with ?a -> _ => assert (H : a) by (left; split; [reflexivity|vm_compute; reflexivity]); specialize (T H); clear H end.
  match type of T with ?a -> _ => assert (H : a) by (right; vm_compute; reflexivity); specialize (T H); clear H end.
  match type of T with ?a -> _ => assert (H : a) by at0_tac; specialize (T H); clear H end.
  specialize (T eq_refl).
  set (v := exec_all ex_h (map fst ex_prog) (initial ex_h, [], [])) in *. remember v as v' eqn:V in *. unfold v in V. vm_compute in V. clear v. subst v'. cbn [fst snd].
  match type of T with if ?b then _ else _ => assert (FB : b = true) by (vm_compute; reflexivity); rewrite FB in T; clear FB end.
  destruct T as (lines & RO & G). exists lines. split; [exact RO|].
  assert (L : match getsrclines isort c [] 0 with Ok ((l, f, d), _) => map n_addr l = [4096; 4100; 4116; 4133] /\ f = [File [47; 115; 47; 98; 46; 99] 0 0; File [47; 115; 47; 98] 7 8] | _ => False end) by (vm_compute; repeat split).
  rewrite G in L. cbv beta iota zeta in L. destruct L as (L1 & L4). split; [exact L1|]. rewrite G. cbv zeta. rewrite L4. reflexivity.
Qed.

(* What the full property would demand and the reader does not do. *)
Definition conforming (c : lctx) (h : params) (ps : list (instr * bytes)) : Prop :=
  params_ok 4 h /\ program true 8 h ps /\ tame_run h (map fst ps) (initial h, [], []) /\ n_fle c = true /\ n_asize c = 8 /\
  at_ (n_mem c) 0 (unit_bytes true 4 8 4 h ([47; 105; 0] ++ [0] ++ ([97; 46; 99; 0; 1; 0; 0] ++ []) ++ [0]) (program_bytes ps)).
Definition rows_of (h : params) (ps : list (instr * bytes)) : list row := snd (fst (exec_all h (map fst ps) (initial h, [], []))).
(* An advance of 2^32 is lost. *)
Definition big_pc : list (instr * bytes) := [(Advance_pc 4294967296, [2; 128; 128; 128; 128; 16]); (Copy, [1]); (End_sequence, [0; 1; 1])].
(* The operand of DW_LNS_advance_pc is cut to 32 bits. *)
Theorem C37_advance_refuted : exists c h ps, conforming c h ps /\ forallb fits (rows_of h ps) = true /\ map (fun w => address (r_regs w)) (rows_of h ps) = [4294967296; 4294967296] /\
  match read_srclines isort c 0 with Ok (lines, _, _) => map n_addr lines = [0; 0] | _ => False end.
Proof.
  exists (ex_c 8 (ex_old (program_bytes big_pc)) None), ex_h, big_pc. split; [|vm_compute; repeat split]. split; [apply ex_params_ok; lia|]. split; [|split; [vm_compute; repeat split; try discriminate|split; [reflexivity|split; [reflexivity|at0_tac]]]].
  unfold program, big_pc. repeat (apply Forall_cons; [cbn [fst snd]|]); [..|constructor]; [apply I_advance_pc; [std_tac|leb_tac]|apply I_copy; std_tac|]. ext_tac 1 (@nil Z). apply X_end.
Qed.
Print Assumptions C37_advance_refuted.
(* A line number that does not fit is delivered as another one. *)
Definition big_line : list (instr * bytes) := [(Advance_line 4294967296, [3; 128; 128; 128; 128; 16]); (Copy, [1]); (End_sequence, [0; 1; 1])].
(* The operand of DW_LNS_advance_line is cut to the size of an int. *)
Theorem C37_line_refuted : exists c h ps, conforming c h ps /\ forallb fits (rows_of h ps) = false /\ match read_srclines isort c 0 with Ok (lines, _, _) => map n_line lines = [1; 1] | _ => False end.
Proof.
  exists (ex_c 8 (ex_old (program_bytes big_line)) None), ex_h, big_line. split; [|vm_compute; repeat split]. split; [apply ex_params_ok; lia|]. split; [|split; [vm_compute; repeat split; try discriminate|split; [reflexivity|split; [reflexivity|at0_tac]]]].
  unfold program, big_line. repeat (apply Forall_cons; [cbn [fst snd]|]); [..|constructor]; [apply I_advance_line; [std_tac|leb_tac]|apply I_copy; std_tac|]. ext_tac 1 (@nil Z). apply X_end.
Qed.
Print Assumptions C37_line_refuted.
(* An extended opcode whose length takes two bytes is refused. *)
Definition long_length : list (instr * bytes) := [(Copy, [1]); (End_sequence, 0 :: [129; 0] ++ [1])].
(* The length of an extended opcode is read as one byte although it is a ULEB128 number. *)
Theorem C37_length_refuted : exists c h ps, conforming c h ps /\ forallb fits (rows_of h ps) = true /\ read_srclines isort c 0 = Err DWARF_E_INVALID_DEBUG_LINE.
Proof.
  exists (ex_c 8 (ex_old (program_bytes long_length)) None), ex_h, long_length. split; [|vm_compute; repeat split]. split; [apply ex_params_ok; lia|]. split; [|split; [vm_compute; repeat split; try discriminate|split; [reflexivity|split; [reflexivity|at0_tac]]]].
  unfold program, long_length. repeat (apply Forall_cons; [cbn [fst snd]|]); [..|constructor]; [apply I_copy; std_tac|]. apply (I_extended true 8 ex_h End_sequence 1 [] [129; 0]); [apply X_end|leb_tac|cbn; lia].
Qed.
Print Assumptions C37_length_refuted.
(* A discriminator is refused unless standard opcode 4 has one operand. *)
Definition disc_h : params := Params 1 1 true (-5) 14 5 [0; 1; 1; 2].
Definition disc : list (instr * bytes) := [(Set_discriminator 3, [0; 2; 4; 3]); (Copy, [1]); (End_sequence, [0; 1; 1])].
(* DW_LNE_set_discriminator is refused unless standard opcode 5 has one operand. *)
Theorem C37_discriminator_refuted : exists c h ps, conforming c h ps /\ forallb fits (rows_of h ps) = true /\ read_srclines isort c 0 = Err DWARF_E_INVALID_DEBUG_LINE.
Proof.
  exists (ex_c 8 (unit_bytes true 4 8 4 disc_h ([47; 105; 0] ++ [0] ++ ([97; 46; 99; 0; 1; 0; 0] ++ []) ++ [0]) (program_bytes disc)) None), disc_h, disc. split; [|vm_compute; repeat split].
  split; [unfold params_ok, is_u8; cbn [minimum maximum base range opcode_base lengths disc_h Z.leb Z.compare]; repeat split; try lia; bytes_tac|]. split; [|split; [vm_compute; repeat split; try discriminate|split; [reflexivity|split; [reflexivity|at0_tac]]]].
  unfold program, disc. repeat (apply Forall_cons; [cbn [fst snd]|]); [..|constructor]; [ext_tac 4 [3]; apply X_discriminator; leb_tac|apply I_copy; std_tac|ext_tac 1 (@nil Z); apply X_end].
Qed.
Print Assumptions C37_discriminator_refuted.
(* Two units that share a table but not the compilation directory get the same files. *)
Theorem C37_cache_refuted : exists c c' off r t r' t' r2, n_mem c = n_mem c' /\ getsrclines isort c [] off = Ok (r, t) /\ getsrclines isort c' t off = Ok (r', t') /\ read_srclines isort c' off = Ok r2 /\ r' <> r2.
Proof.
  set (m := unit_bytes true 4 8 4 ex_h ([0] ++ [97; 0; 0; 0; 0] ++ [0]) [1; 0; 1; 1]).
  assert (G : match getsrclines isort (ex_c 8 m (Some [47; 99])) [] 0, read_srclines isort (ex_c 8 m (Some [47; 100])) 0 with
    | Ok ((l, f, d), t), Ok (l2, f2, d2) => f = [null_file; File [47; 99; 47; 97] 0 0] /\ f2 = [null_file; File [47; 100; 47; 97] 0 0] | _, _ => False end) by (vm_compute; repeat split).
  destruct (getsrclines isort (ex_c 8 m (Some [47; 99])) [] 0) as [[[[l f] d] t]| | |] eqn:E; try contradiction. destruct (read_srclines isort (ex_c 8 m (Some [47; 100])) 0) as [[[l2 f2] d2]| | |] eqn:E2; try contradiction. destruct G as [-> ->].
  exists (ex_c 8 m (Some [47; 99])), (ex_c 8 m (Some [47; 100])), 0. do 2 eexists. exists (l, [null_file; File [47; 99; 47; 97] 0 0], d), t. eexists. split; [reflexivity|]. split; [exact E|]. split; [|split; [exact E2|congruence]].
  destruct (C37_stable _ _ _ _ _ _ E) as [X _]. unfold getsrclines in X |- *. destruct (find (fun x => fst x =? 0) t) as [[o r]|]; [exact X|]. exfalso. unfold getsrclines in E. cbn [find] in E.
  destruct (offset_in_section (Some (n_mem (ex_c 8 m (Some [47; 99])))) 0 1) as [[]| | |]; try discriminate E. cbn [obind] in *. destruct (read_srclines isort (ex_c 8 m (Some [47; 99])) 0) as [r| | |]; try discriminate. cbn [obind] in *. injection X as _ X. assert (length t = S (length t)) by (rewrite <- X at 1; reflexivity). lia.
Qed.
Print Assumptions C37_cache_refuted.
(* A header that ends after its length field makes the reader go outside the section. *)
Theorem C37_bounds_refuted : exists c, bytes_ok (n_mem c) /\ read_header c 0 = UB.
Proof. exists (ex_c 8 [6; 0; 0; 0; 2; 0; 0; 0; 0; 0] None). split; [bytes_tac|vm_compute; reflexivity]. Qed.
Print Assumptions C37_bounds_refuted.
(* For every content of the section, the table of a unit is read inside the section or refused,
   provided a zero byte and five more bytes follow the unit (the reads of C37_bounds_refuted)
   and the string sections end with a zero byte. *)
Theorem C37_safe_partial : forall qs c p, bytes_ok (n_mem c) -> 0 <= p -> (forall e, unit_end c p = Some e -> e <= zlen (n_mem c) -> room c e) ->
  match read_srclines qs c p with Ok _ => True | Err _ => True | UB => False | Fuel => False end.
Proof. exact srclines_safe. Qed.
Print Assumptions C37_safe_partial.
Example C37_safe_nonvacuous : let c := ex_c 8 (ex_new (program_bytes ex_prog) ++ [0; 9; 9; 9; 9; 9]) None in let d := ex_c 8 ([9; 0; 0; 0; 2; 0; 0; 0; 0; 0; 255; 255; 255] ++ [0; 9; 9; 9; 9; 9]) None in
  (forall e, unit_end c 0 = Some e -> e <= zlen (n_mem c) -> room c e) /\ (match read_srclines isort c 0 with Ok (l, _, _) => length l = 4%nat | _ => False end) /\
  (forall e, unit_end d 0 = Some e -> e <= zlen (n_mem d) -> room d e) /\ read_srclines isort d 0 = Err DWARF_E_INVALID_DEBUG_LINE.
Proof.
  assert (G : forall mem e, bytes_ok mem -> zlen mem < two63 -> 0 <= e /\ e + 6 <= zlen mem -> znth mem e = Some 0 -> room (ex_c 8 mem None) e).
  { intros mem e B L E Z0. constructor; try assumption; [right; reflexivity|exact Logic.I| |reflexivity]. split; [bytes_tac|]. intros _. vm_compute. reflexivity. }
  intros c d. split; [|split; [vm_compute; reflexivity|split; [|vm_compute; reflexivity]]].
  - intros e E L. vm_compute in E. injection E as <-. apply G; [bytes_tac|vm_compute; reflexivity|split; vm_compute; discriminate|vm_compute; reflexivity].
  - intros e E L. vm_compute in E. injection E as <-. apply G; [bytes_tac|vm_compute; reflexivity|split; vm_compute; discriminate|vm_compute; reflexivity].
Qed.
(* When sequences overlap, an address that has a row may get none. *)
Definition at_row (a : Z) (e : bool) : row := Row (Regs a 0 1 1 0 true false false false 0 0) e.
Definition overlap : list (list row) := [[at_row 0 false; at_row 100 true]; [at_row 10 false; at_row 20 true]].
Lemma pair_sequence : forall a b, a < b -> sequence [at_row a false; at_row b true].
Proof.
  intros a b L. exists [at_row a false], (at_row b true). split; [reflexivity|]. split; [repeat constructor; exact L|]. split; [reflexivity|]. intros i j x y IJ X Y. destruct i as [|[|i]], j as [|[|j]]; try lia; cbn in X, Y; try (destruct j; discriminate); try (destruct i; discriminate). injection X as <-. injection Y as <-. cbn. lia.
Qed.
(* With overlapping sequences an address inside one of them is not found. *)
Theorem C53_overlap_refuted : exists c seqs lines a w, Forall sequence seqs /\ result_ok c (concat seqs) lines /\ row_of seqs a w /\ getsrc_die lines a = Err DWARF_E_ADDR_OUTOFRANGE.
Proof.
  destruct (sorted_rows isort (concat overlap) isort_ok) as (rs & PE & SS & E). exists (ex_c 8 [] None), overlap, (map shown (last_ends (map snd rs))), 50, (at_row 0 false). split; [repeat constructor; apply pair_sequence; lia|]. split; [exists rs; auto|]. split.
  - exists [at_row 0 false; at_row 100 true], 0%nat, (at_row 100 true). split; [left; reflexivity|]. split; [reflexivity|]. split; [reflexivity|]. cbn. lia.
  - assert (X : map snd (isort (combine (seq 0 (length (concat overlap))) (map shown (concat overlap)))) = map shown (map snd rs)) by (rewrite E, !map_map; reflexivity). rewrite <- mark_last_ok, <- X. vm_compute. reflexivity.
Qed.
Print Assumptions C53_overlap_refuted.
(* Sequences that do not overlap, in the order in which they do not come. *)
Definition apart2 : list (list row) := [[at_row 20 false; at_row 100 true]; [at_row 10 false; at_row 20 true]].
Example C53_nonvacuous : sequences apart2 /\ row_of apart2 20 (at_row 20 false) /\ (exists lines, result_ok (ex_c 8 [] None) (concat apart2) lines) /\ (forall w, ~ row_of apart2 100 w).
Proof.
  split; [split; [repeat constructor; apply pair_sequence; lia|]|split; [|split]].
  - intros i j s t N X Y. destruct i as [|[|i]], j as [|[|j]]; try lia; cbn in X, Y; try (destruct i; discriminate); try (destruct j; discriminate); injection X as <-; injection Y as <-; [right|left]; cbn; intros x y [<-|[<-|[]]] [<-|[<-|[]]]; cbn; lia.
  - exists [at_row 20 false; at_row 100 true], 0%nat, (at_row 100 true). split; [left; reflexivity|]. split; [reflexivity|]. split; [reflexivity|]. cbn. lia.
  - destruct (sorted_rows isort (concat apart2) isort_ok) as (rs & PE & SS & E). eexists. exists rs. auto.
  - intros w (s & k & w' & [<-|[<-|[]]] & K & K' & A); destruct k as [|[|k]]; cbn in K, K'; try (destruct k; discriminate); try discriminate; injection K' as <-; cbn in A; lia.
Qed.
