(* Lemmas about the links to separate debug files and the build ID. *)
From Verif Require Import Base XlateModel XlateSpec XlateProof XlateNoteProof XlateVerProof CrcModel NoteModel NoteProps IdModel IdSpec.

Lemma beq_ok : forall a b, beq a b = true <-> a = b.
Proof. intros a b. unfold beq. destruct (list_eq_dec Z.eq_dec a b); split; congruence. Qed.
Lemma znth_mid : forall (a : bytes) x b, znth (a ++ x :: b) (zlen a) = Some x.
Proof. intros a x b. unfold znth, zlen. rewrite Nat2Z.id, nth_error_app2 by lia. rewrite Nat.sub_diag, app_length. cbn [length nth_error]. replace ((0 <=? Z.of_nat (length a)) && (Z.of_nat (length a) <? Z.of_nat (length a + S (length b)))) with true by lia. reflexivity. Qed.
Lemma memchr_spec : forall n pre l, (n <= length l)%nat ->
  (exists a b, memchr_nul (pre ++ l) n (zlen pre) = Ok (Some (zlen pre + zlen a)) /\ l = a ++ 0 :: b /\ ~ In 0 a /\ (length a < n)%nat)
  \/ (memchr_nul (pre ++ l) n (zlen pre) = Ok None /\ ~ In 0 (firstn n l)).
Proof.
  induction n as [|n IH]; intros pre l L; cbn [memchr_nul]; [right; split; [reflexivity|intros []]|]. destruct l as [|x l]; [cbn in L; lia|]. rewrite znth_mid. destruct (x =? 0) eqn:E.
  - left. exists [], l. rewrite Z.add_0_r. split; [reflexivity|]. split; [apply Z.eqb_eq in E; subst x; reflexivity|]. split; [intros []|cbn; lia].
  - cbn [length] in L. replace (pre ++ x :: l) with ((pre ++ [x]) ++ l) by (rewrite <- app_assoc; reflexivity). replace (zlen pre + 1) with (zlen (pre ++ [x])) by (rewrite zlen_app; reflexivity). destruct (IH (pre ++ [x]) l ltac:(lia)) as [(a & b & M & -> & N & LA)|(M & N)].
    + left. exists (x :: a), b. rewrite M. split; [do 2 f_equal; rewrite zlen_app, !zlen_cons, zlen_nil; lia|]. split; [reflexivity|]. split; [intros [I|I]; [lia|auto]|cbn; lia].
    + right. split; [exact M|]. cbn [firstn]. intros [I|I]; [lia|auto].
Qed.
Lemma split_first : forall (a b a' b' : bytes), a ++ 0 :: b = a' ++ 0 :: b' -> ~ In 0 a -> ~ In 0 a' -> a = a' /\ b = b'.
Proof.
  induction a as [|x a IH]; intros b [|x' a'] b' E N N'; cbn [app] in E.
  - injection E as ->. auto.
  - injection E as <- _. exfalso. apply N'. left. reflexivity.
  - injection E as -> _. exfalso. apply N. left. reflexivity.
  - injection E as <- E. destruct (IH b a' b' E) as (-> & ->); [intros I; apply N; right; exact I|intros I; apply N'; right; exact I|]. auto.
Qed.
Lemma zsub_tail : forall (a w : bytes), zsub (a ++ w) (zlen a) (zlen w) = w.
Proof. intros a w. pose proof (zsub_app _ a w []) as H. rewrite app_nil_r in H. exact H. Qed.
Lemma link_ok : forall le raw, exists r, link_data le raw = Ok r /\ forall crc, r = Some crc <-> exists name, is_debuglink le raw name crc.
Proof.
  intros le raw. unfold link_data. destruct (zlen raw <=? 4) eqn:S4.
  - exists None. split; [reflexivity|]. intros crc. split; [discriminate|]. intros (name & pad & w & -> & _ & W & _). exfalso. unfold zlen in S4. rewrite app_length in S4. cbn [length] in S4. rewrite app_length, W in S4. lia.
  - destruct (memchr_spec (Z.to_nat (zlen raw - 4)) [] raw ltac:(unfold zlen; lia)) as [(a & b & M & E & N & LA)|(M & N)]; cbn [app] in M; change (zlen []) with 0 in M; rewrite M; cbn [obind].
    + assert (LB : (4 <= length b)%nat) by (subst raw; unfold zlen in *; rewrite app_length in *; cbn [length] in *; lia).
      assert (SP : exists pad w, b = pad ++ w /\ length w = 4%nat). { exists (firstn (length b - 4) b), (skipn (length b - 4) b). split; [symmetry; apply firstn_skipn|rewrite skipn_length; lia]. } destruct SP as (pad & w & -> & W).
      assert (RW : zsub raw (zlen raw - 4) 4 = w). { replace raw with ((a ++ 0 :: pad) ++ w) by (subst raw; rewrite <- app_assoc; reflexivity). replace (zlen ((a ++ 0 :: pad) ++ w) - 4) with (zlen (a ++ 0 :: pad)) by (rewrite (zlen_app _ (a ++ 0 :: pad) w); unfold zlen; rewrite W; lia). replace 4 with (zlen w) by (unfold zlen; rewrite W; reflexivity). apply zsub_tail. }
      rewrite RW. eexists. split; [reflexivity|]. intros crc. split.
      * intros X. injection X as <-. exists a, pad, w. auto.
      * intros (name & pad' & w' & E' & N' & W' & ->). rewrite E in E'. destruct (split_first _ _ _ _ E' N N') as (<- & B). f_equal. assert (LP : length pad = length pad') by (apply (f_equal (@length Z)) in B; rewrite !app_length in B; lia). assert (w = w'); [|subst; reflexivity].
        apply (f_equal (skipn (length pad))) in B. rewrite !skipn_app, skipn_all, <- LP, Nat.sub_diag in B. rewrite LP, skipn_all in B. exact B.
    + exists None. split; [reflexivity|]. intros crc. split; [discriminate|]. intros (name & pad & w & E & _ & W & _). exfalso. apply N. subst raw. replace (name ++ 0 :: pad ++ w) with ((name ++ 0 :: pad) ++ w) by (rewrite <- app_assoc; reflexivity). rewrite firstn_app. apply in_or_app. left. rewrite firstn_all2; [apply in_or_app; right; left; reflexivity|]. rewrite zlen_app. unfold zlen. rewrite W. lia.
Qed.

(* build IDs *)
Definition idp (m : mem) (r : gnhdr * Z * Z) : bool := match r with (h, n, _) => (nh_type h =? NT_GNU_BUILD_ID) && (nh_namesz h =? 4) && beq (rdm m n 4) [71; 78; 85; 0] end.
Definition shown (va : Z) (r : gnhdr * Z * Z) : Z * Z * Z := match r with (h, _, p) => (p, if va =? NO_VADDR then 0 else u64 (va + p), s32 (nh_descsz h)) end.
Definition within (size : Z) (r : gnhdr * Z * Z) : Prop := match r with (h, n, p) => 0 <= n /\ 0 <= nh_namesz h /\ n + nh_namesz h <= size /\ 0 <= p /\ 0 <= nh_descsz h /\ p + nh_descsz h <= size end.
Lemma check_iter : forall fuel le d va pos l, note_type (d_ty d) -> mem_ok (d_mem d) -> 0 <= d_size d <= two32 - 8 -> 0 <= pos <= d_size d ->
  iterate fuel le (d_ty d) (d_mem d) (d_size d) pos = Ok l ->
  Forall (within (d_size d)) l /\ check_notes fuel le d va pos = Ok (option_map (shown va) (find (idp (d_mem d)) l)).
Proof.
  induction fuel as [|fuel IH]; intros le d va pos l T M S P IT; [discriminate|]. cbn [iterate check_notes] in *. destruct (getnote_cases le (d_ty d) (d_mem d) (d_size d) pos T M) as (r & E & C); [lia|unfold is_u64; lia|]. rewrite E in *. cbn [obind] in *. destruct (gn_ret r =? 0) eqn:R.
  - injection IT as <-. split; [constructor|reflexivity].
  - destruct (C22_progress_partial le (d_ty d) (d_mem d) (d_size d) pos r T M S) as (h & nm & ds & H1 & H2 & H3 & HH & HN & _ & HD & HR & HS); [unfold is_u64; lia|exact E|lia|]. rewrite H1, H2, H3 in *.
    assert (SZ : 0 <= nh_namesz h /\ 0 <= nh_descsz h) by (subst h; cbn [nh_namesz nh_descsz]; pose proof (rd32_u32 le (d_mem d) pos M); pose proof (rd32_u32 le (d_mem d) (pos + 4) M); lia).
    destruct (iterate fuel le (d_ty d) (d_mem d) (d_size d) (gn_ret r)) as [l'| | |] eqn:I; try discriminate. cbn [obind] in IT. injection IT as <-. destruct (IH le d va (gn_ret r) l' T M S ltac:(lia) I) as (W & CN). split; [constructor; [cbn [within]; lia|exact W]|].
    cbn [find idp]. rewrite CN. destruct ((nh_type h =? NT_GNU_BUILD_ID) && (nh_namesz h =? 4)) eqn:B; cbn [andb]; [|reflexivity]. unfold chk, inside. replace ((0 <=? nm) && (0 <=? 4) && (nm + 4 <=? d_size d)) with true by lia. destruct (beq (rdm (d_mem d) nm 4) [71; 78; 85; 0]); reflexivity.
Qed.
(* the first of two lists that correspond *)
Lemma find_corr : forall (A B C : Type) (f : A -> C) (g : B -> C) (p : A -> bool) (q : B -> Prop) (rs : list A) (ns : list B), map f rs = map g ns -> Forall (fun r => forall n, f r = g n -> (p r = true <-> q n)) rs ->
  match find p rs with
  | None => Forall (fun n => ~ q n) ns
  | Some r => In r rs /\ exists n1 n n2, ns = n1 ++ n :: n2 /\ Forall (fun n => ~ q n) n1 /\ q n /\ f r = g n
  end.
Proof.
  intros A B C f g p q. induction rs as [|r rs IH]; intros [|n ns] E F; try discriminate; cbn [find].
  - constructor.
  - cbn [map] in E. injection E as E1 E2. apply Forall_cons_iff in F. destruct F as (F1 & F2). specialize (F1 n E1). destruct (p r) eqn:P.
    + split; [left; reflexivity|]. exists [], n, ns. split; [reflexivity|]. split; [constructor|]. split; [apply F1; reflexivity|exact E1].
    + specialize (IH ns E2 F2). assert (NQ : ~ q n) by (intros Q; apply F1 in Q; discriminate). destruct (find p rs) as [r'|]; [|constructor; assumption]. destruct IH as (I & n1 & n' & n2 & -> & N1 & Q & G). split; [right; exact I|]. exists (n :: n1), n', n2. split; [reflexivity|]. split; [constructor; assumption|]. auto.
Qed.
Lemma has_ok : forall le s b ns, has_notes le s b ns -> n_note s = true -> forall d, n_data s = Some d -> forall fuel va, (length ns < fuel)%nat ->
  exists r, check_notes fuel le d va 0 = Ok r /\
    match r with
    | None => Forall (fun n => ~ is_id n) ns
    | Some (pos, addr, len) => exists n1 n n2, ns = n1 ++ n :: n2 /\ Forall (fun n => ~ is_id n) n1 /\ is_id n /\ zsub b pos len = no_desc n /\ len = zlen (no_desc n) /\ 0 <= pos /\ pos + len <= zlen b /\ addr = if va =? NO_VADDR then 0 else u64 (va + pos)
    end.
Proof.
  intros le s b ns [([H|H] & _)|(_ & ty & tail & D & T & F & TL & TS & B & SZ)] NN d DD fuel va FU; [congruence|congruence|]. rewrite D in DD. injection DD as <-.
  assert (BO : bytes_ok b).
  { subst b. apply bytes_ok_app. split; [|exact TL]. clear - F. induction F as [|n l (A & B & C) F IH]; [constructor|]. cbn [map concat].
    apply bytes_ok_app. split; [|exact IH]. unfold note_bytes. rewrite !bytes_ok_app.
    assert (W : forall x, bytes_ok (word le x)) by (intros x; unfold word; destruct le; [apply le_bytes_ok|apply be_bytes_ok]).
    assert (PD : forall k, bytes_ok (padding (alignment ty) k)).
    { intros k. unfold padding. apply Forall_forall. intros x X. apply repeat_spec in X. subst x. unfold is_u8. lia. }
    auto 20. }
  assert (M : mem_ok (bmem b)) by (intros x; unfold bmem; destruct (nth_in_or_default (Z.to_nat x) b 0) as [I|E]; [exact (proj1 (Forall_forall _ _) BO _ I)|rewrite E; unfold is_u8; lia]).
  pose proof (zlen_nonneg _ b) as ZB.
  destruct (C22_iteration_exact le ty ns tail T F TL TS ltac:(rewrite <- B; lia) fuel FU) as (rs & IT & EQ). rewrite <- B in IT, EQ.
  destruct (check_iter fuel le (NData ty (bmem b) (zlen b)) va 0 rs T M ltac:(cbn; lia) ltac:(cbn; lia) IT) as (W & CN). cbn [d_mem d_size] in *. rewrite CN. eexists. split; [reflexivity|].
  pose proof (find_corr _ _ _ _ _ (idp (bmem b)) is_id rs ns EQ) as FC. cbv beta in FC.
  assert (K : Forall (fun r : gnhdr * Z * Z => forall n : note, (let (p, desc) := r in let (h, name) := p in (zsub b name (nh_namesz h), zsub b desc (nh_descsz h), nh_type h)) = (no_name n, no_desc n, no_type n) -> idp (bmem b) r = true <-> is_id n) rs).
  { eapply Forall_impl; [|exact W]. intros ((h & nm) & p) (W1 & W2 & W3 & _) n E. injection E as E1 E2 E3. unfold idp, is_id. rewrite <- E1, <- E3, !andb_true_iff, beq_ok. split.
    - intros ((X & Y) & Z0). split; [unfold NT_GNU_BUILD_ID in X; lia|]. apply Z.eqb_eq in Y. rewrite Y in *. rewrite rdm_bmem in Z0 by lia. exact Z0.
    - intros (X & Y). assert (L4 : nh_namesz h = 4). { rewrite <- (zsub_length _ b nm (nh_namesz h)) by lia. rewrite Y. reflexivity. } rewrite L4 in *. split; [split; [unfold NT_GNU_BUILD_ID; lia|reflexivity]|]. rewrite rdm_bmem by lia. exact Y. }
  specialize (FC K). destruct (find (idp (bmem b)) rs) as [((h & nm) & p)|]; cbn [option_map shown].
  - destruct FC as (I & n1 & n & n2 & -> & N1 & Q & G). injection G as _ G2 _. pose proof (proj1 (Forall_forall _ _) W _ I) as (_ & _ & _ & W4 & W5 & W6). assert (SL : s32 (nh_descsz h) = nh_descsz h) by (unfold s32; rewrite Z.mod_small; lia). rewrite SL. exists n1, n, n2. split; [reflexivity|]. split; [exact N1|]. split; [exact Q|]. split; [exact G2|]. split; [rewrite <- G2; symmetry; apply zsub_length; lia|]. split; [lia|]. split; [lia|reflexivity].
  - exact FC.
Qed.
