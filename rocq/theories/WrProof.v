(* Proofs about writing files. *)
From Verif Require Import Base WrModel WrSpec.
From Coq Require Import Sorted Permutation ZifyBool.

Lemma put_in f p b i : 0 <= i < zlen b -> Some (put f p b (p + i)) = znth b i.
Proof.
  intro H. unfold put. replace ((p <=? p + i) && (p + i <? p + zlen b)) with true by lia. replace (p + i - p) with i by lia.
  destruct (znth_in _ b i H) as (x & X). rewrite X. reflexivity.
Qed.
Lemma put_out f p b q : q < p \/ p + zlen b <= q -> put f p b q = f q.
Proof. intro H. unfold put. replace ((p <=? q) && (q <? p + zlen b)) with false by lia. reflexivity. Qed.

Section W.
  Variable byte : Z.
  Variable lo : Z.
  Variable full : bool.
  Variable f0 : store.
  (* the state of the file when everything below hi has been dealt with *)
  Definition W (f : store) (L : list piece) (hi : Z) : Prop :=
    file_is byte full lo hi L f0 f /\ (forall p n o, In (p, n, o) L -> lo <= p /\ 0 <= n /\ p + n <= hi /\ match o with Some b => zlen b = n | None => True end) /\ lo <= hi.

  Lemma W_nil : W f0 [] lo.
  Proof. split; [|split; [intros p n o []|lia]]. split; [intros p n b i []|]. split; [intros p n q []|]. split; [reflexivity|]. intros q H; lia. Qed.
  Lemma W_gap f L hi hi' f' : W f L hi -> hi <= hi' -> (forall q, f' q = if (hi <=? q) && (q <? hi') then byte else f q) -> W f' L hi'.
  Proof.
    intros ((A & B & C & D) & E & G) H F. split; [|split; [intros p n o X; destruct (E p n o X) as (? & ? & ? & ?); split; [lia|split; [lia|split; [lia|assumption]]]|lia]].
    split; [|split; [|split]].
    - intros p n b i X Y. destruct (E _ _ _ X) as (E1 & E2 & E3 & E4). cbn in E4. rewrite F. replace ((hi <=? p + i) && (p + i <? hi')) with false by lia. eapply A; eauto.
    - intros p n q X Y. destruct (E _ _ _ X) as (E1 & E2 & E3 & _). rewrite F. replace ((hi <=? q) && (q <? hi')) with false by lia. eapply B; eauto.
    - intros q X. rewrite F. replace ((hi <=? q) && (q <? hi')) with false by lia. apply C. lia.
    - intros q X N. rewrite F. destruct ((hi <=? q) && (q <? hi')) eqn:Q; [left; reflexivity|]. apply D; [lia|exact N].
  Qed.
  Lemma W_skip f L hi hi' : W f L hi -> hi <= hi' -> full = false \/ hi' = hi -> W f L hi'.
  Proof.
    intros (F & E & G) H [N | ->]; [|split; [exact F|split; [exact E|exact G]]]. destruct F as (A & B & C & D).
    split; [|split; [intros p n o X; destruct (E p n o X) as (? & ? & ? & ?); split; [lia|split; [lia|split; [lia|assumption]]]|lia]]. split; [exact A|]. split; [exact B|]. split; [intros q X; apply C; lia|].
    intros q X M. destruct (Z_lt_dec q hi); [apply D; [lia|exact M]|]. right. split; [exact N|apply C; lia].
  Qed.
  Lemma W_put f L hi b : W f L hi -> W (put f hi b) (L ++ [(hi, zlen b, Some b)]) (hi + zlen b).
  Proof.
    intros ((A & B & C & D) & E & G). pose proof (zlen_nonneg _ b) as Z0. split; [split; [|split; [|split]]|split].
    - intros p n b' i X Y. apply in_app_or in X as [X | [X | []]].
      + destruct (E _ _ _ X) as (E1 & E2 & E3 & E4). cbn in E4. rewrite put_out by lia. eapply A; eauto.
      + injection X as -> <- <-. apply put_in. lia.
    - intros p n q X Y. apply in_app_or in X as [X | [X | []]]; [|discriminate]. destruct (E _ _ _ X) as (E1 & E2 & E3 & _). rewrite put_out by lia. eapply B; eauto.
    - intros q X. rewrite put_out by lia. apply C. lia.
    - intros q X N. destruct (Z_lt_dec q hi) as [l | g].
      + rewrite put_out by lia. apply D; [lia|]. intros p n o I. apply (N p n o). apply in_or_app. left. exact I.
      + exfalso. apply (N hi (zlen b) (Some b)); [apply in_or_app; right; left; reflexivity|lia].
    - intros p n o X. apply in_app_or in X as [X | [X | []]]; [destruct (E _ _ _ X) as (? & ? & ? & ?); split; [lia|split; [lia|split; [lia|assumption]]]|]. injection X as <- <- <-. split; [lia|split; [lia|split; [lia|reflexivity || exact Logic.I]]].
    - lia.
  Qed.
  Lemma W_keep f L hi n : 0 <= n -> W f L hi -> W f (L ++ [(hi, n, None)]) (hi + n).
  Proof.
    intros Z0 ((A & B & C & D) & E & G). split; [split; [|split; [|split]]|split].
    - intros p m b' i X Y. apply in_app_or in X as [X | [X | []]]; [|discriminate]. eapply A; eauto.
    - intros p m q X Y. apply in_app_or in X as [X | [X | []]]; [eapply B; eauto|]. injection X as <- <-. apply C. lia.
    - intros q X. apply C. lia.
    - intros q X N. destruct (Z_lt_dec q hi) as [l | g].
      + apply D; [lia|]. intros p m o I. apply (N p m o). apply in_or_app. left. exact I.
      + exfalso. apply (N hi n None); [apply in_or_app; right; left; reflexivity|lia].
    - intros p m o X. apply in_app_or in X as [X | [X | []]]; [destruct (E _ _ _ X) as (? & ? & ? & ?); split; [lia|split; [lia|split; [lia|assumption]]]|]. injection X as <- <- <-. split; [lia|split; [lia|split; [lia|reflexivity || exact Logic.I]]].
    - lia.
  Qed.
  (* something is written over a region in which there is no piece *)
  Lemma W_over f L hi f' p n T :
    W f L hi -> 0 <= n -> lo <= p -> p + n <= hi \/ p = hi ->
    (forall a m o, In (a, m, o) L -> apart a m p n) ->
    (forall q, q < p \/ p + n <= q -> f' q = f q) ->
    (forall q, p <= q < p + n -> exists a m o, In (a, m, o) T /\ a <= q < a + m) ->
    (forall a m o, In (a, m, o) T -> p <= a /\ 0 <= m /\ a + m <= p + n /\
       match o with Some b => zlen b = m /\ (forall i, 0 <= i < zlen b -> Some (f' (a + i)) = znth b i) | None => forall q, a <= q < a + m -> f' q = f0 q end) ->
    W f' (L ++ T) (Z.max hi (p + n)).
  Proof.
    intros ((A & B & C & D) & E & G) N0 LP PP AP FO TC TP. split; [split; [|split; [|split]]|split].
    - intros a m b i X Y. apply in_app_or in X as [X | X].
      + destruct (E _ _ _ X) as (E1 & E2 & E3 & E4). cbn in E4. pose proof (AP _ _ _ X) as V. unfold apart in V. rewrite FO by lia. eapply A; eauto.
      + destruct (TP _ _ _ X) as (_ & _ & _ & _ & H). apply H. exact Y.
    - intros a m q X Y. apply in_app_or in X as [X | X].
      + destruct (E _ _ _ X) as (E1 & E2 & E3 & _). pose proof (AP _ _ _ X) as V. unfold apart in V. rewrite FO by lia. eapply B; eauto.
      + destruct (TP _ _ _ X) as (_ & _ & _ & H). apply H. exact Y.
    - intros q X. rewrite FO by lia. apply C. lia.
    - intros q X N. assert (Q : q < p \/ p + n <= q).
      { destruct (Z_lt_dec q p); [lia|]. destruct (Z_lt_dec q (p + n)); [|lia]. exfalso. destruct (TC q ltac:(lia)) as (a & m & o & I & J). apply (N a m o); [apply in_or_app; right; exact I|exact J]. }
      rewrite FO by exact Q. apply D; [lia|]. intros a m o I. apply (N a m o). apply in_or_app. left. exact I.
    - intros a m o X. apply in_app_or in X as [X | X]; [destruct (E _ _ _ X) as (? & ? & ? & ?); split; [lia|split; [lia|split; [lia|assumption]]]|]. destruct (TP _ _ _ X) as (H1 & H2 & H3 & H4). split; [lia|]. split; [lia|]. split; [lia|]. destruct o; [apply H4|exact Logic.I].
    - lia.
  Qed.
End W.

(* ---------------- the filling of gaps ---------------- *)
Definition fillok (byte : Z) (fs : bytes * Z) : Prop := zlen (fst fs) = 4096 /\ 0 <= snd fs <= 4096 /\ forall i, 0 <= i < snd fs -> znth (fst fs) i = Some byte.
Lemma fill_loop_ok byte buf filled : 0 < filled <= zlen buf -> (forall i, 0 <= i < filled -> znth buf i = Some byte) ->
  forall fuel f pos len, 0 <= len < Z.of_nat fuel -> exists f', fill_loop fuel f pos len buf filled = Ok f' /\ forall q, f' q = if (pos <=? q) && (q <? pos + len) then byte else f q.
Proof.
  intros F B. induction fuel as [|k IH]; [intros f pos len H; lia|]. intros f pos len H. cbn [fill_loop]. cbv zeta.
  assert (ZL : zlen (zsub buf 0 (Z.min filled len)) = Z.min filled len) by (apply zsub_length; lia).
  assert (P : forall q, put f pos (zsub buf 0 (Z.min filled len)) q = if (pos <=? q) && (q <? pos + Z.min filled len) then byte else f q).
  { intro q. unfold put. rewrite ZL. destruct ((pos <=? q) && (q <? pos + Z.min filled len)) eqn:Q; [|reflexivity]. rewrite znth_zsub by lia. rewrite B by lia. reflexivity. }
  destruct (0 <? len - Z.min filled len) eqn:G.
  - destruct (IH (put f pos (zsub buf 0 (Z.min filled len))) (pos + Z.min filled len) (len - Z.min filled len) ltac:(lia)) as (f' & E & K).
    exists f'. split; [exact E|]. intro q. rewrite K, P.
    destruct ((pos + Z.min filled len <=? q) && (q <? pos + Z.min filled len + (len - Z.min filled len))) eqn:Q1; destruct ((pos <=? q) && (q <? pos + Z.min filled len)) eqn:Q2; destruct ((pos <=? q) && (q <? pos + len)) eqn:Q3; try reflexivity; exfalso; lia.
  - eexists. split; [reflexivity|]. intro q. rewrite P. replace (Z.min filled len) with len by lia. reflexivity.
Qed.
Lemma fill_ok byte f pos len fs : 0 < len -> fillok byte fs ->
  exists f' fs', fill byte f pos len fs = Ok (f', fs') /\ fillok byte fs' /\ forall q, f' q = if (pos <=? q) && (q <? pos + len) then byte else f q.
Proof.
  intros L F. destruct fs as (buf, filled). destruct F as (F1 & F2 & F3). cbn [fst snd] in *. unfold fill, FILLBUFSIZE. cbv zeta.
  destruct ((filled <? Z.min len 4096) && (filled <? 4096)) eqn:G.
  - set (m := Z.min len 4096) in *. assert (M : filled < m <= 4096) by lia.
    set (buf' := zsub buf 0 filled ++ repeat byte (Z.to_nat (m - filled)) ++ zsub buf m (zlen buf - m)).
    assert (L1 : zlen (zsub buf 0 filled) = filled) by (apply zsub_length; lia).
    assert (L2 : zlen (repeat byte (Z.to_nat (m - filled))) = m - filled) by (rewrite zlen_repeat; lia).
    assert (L3 : zlen (zsub buf m (zlen buf - m)) = zlen buf - m) by (apply zsub_length; lia).
    assert (LB : zlen buf' = 4096) by (unfold buf'; rewrite !zlen_app; lia).
    assert (NB : forall i, 0 <= i < m -> znth buf' i = Some byte).
    { intros i I. unfold buf'. destruct (Z_lt_dec i filled).
      - rewrite znth_app_l by lia. rewrite znth_zsub by lia. apply F3. lia.
      - rewrite znth_app_r by lia. rewrite znth_app_l by lia. apply znth_repeat. lia. }
    destruct (fill_loop_ok byte buf' m ltac:(lia) NB (S (Z.to_nat len)) f pos len ltac:(lia)) as (f' & E & K).
    exists f', (buf', m). rewrite E. split; [reflexivity|]. split; [|exact K]. split; [exact LB|]. split; [cbn [snd]; lia|exact NB].
  - destruct (fill_loop_ok byte buf filled ltac:(lia) F3 (S (Z.to_nat len)) f pos len ltac:(lia)) as (f' & E & K).
    exists f', (buf, filled). rewrite E. split; [reflexivity|]. split; [|exact K]. split; [exact F1|]. split; [exact F2|exact F3].
Qed.

(* ---------------- sorting ---------------- *)
Lemma sort_ins_perm s l : Permutation (s :: l) (sort_ins s l).
Proof. induction l as [|x r IH]; [reflexivity|]. cbn [sort_ins]. destruct (scn_le s x); [reflexivity|]. rewrite perm_swap. constructor. exact IH. Qed.
Lemma sort_perm l : Permutation l (sort_scns l).
Proof. induction l as [|x r IH]; [constructor|]. cbn. rewrite <- sort_ins_perm. constructor. exact IH. Qed.
Definition sle (a b : wscn) : Prop := v_off a < v_off b \/ (v_off a = v_off b /\ (v_size a < v_size b \/ (v_size a = v_size b /\ v_index a <= v_index b))).
Lemma scn_le_spec a b : scn_le a b = true <-> sle a b.
Proof. unfold scn_le, sle. destruct (v_off a <? v_off b) eqn:A, (v_off b <? v_off a) eqn:B, (v_size a <? v_size b) eqn:C, (v_size b <? v_size a) eqn:D; lia. Qed.
Lemma sort_ins_sorted s l : StronglySorted sle l -> StronglySorted sle (sort_ins s l).
Proof.
  induction l as [|x r IH]; intro H; [repeat constructor|]. cbn [sort_ins]. inversion H as [|? ? H1 H2]; subst. destruct (scn_le s x) eqn:E.
  - apply scn_le_spec in E. constructor; [exact H|]. constructor; [exact E|]. eapply Forall_impl; [|exact H2]. intros y Y. unfold sle in *. lia.
  - assert (E' : sle x s). { assert (~ sle s x) by (intro K; apply scn_le_spec in K; congruence). unfold sle in *. lia. }
    constructor; [apply IH; exact H1|]. eapply Permutation_Forall; [apply sort_ins_perm|]. constructor; assumption.
Qed.
Lemma sort_sorted l : StronglySorted sle (sort_scns l).
Proof. induction l as [|x r IH]; [constructor|]. cbn. apply sort_ins_sorted. exact IH. Qed.
Lemma sorted_filter (g : wscn -> bool) l : StronglySorted sle l -> StronglySorted sle (filter g l).
Proof.
  induction 1 as [|x r H IH F]; [constructor|]. cbn. destruct (g x); [|exact IH]. constructor; [exact IH|]. rewrite Forall_forall in *. intros y Y. apply F. apply filter_In in Y. apply Y.
Qed.
Lemma perm_filter {A} (g : A -> bool) l m : Permutation l m -> Permutation (filter g l) (filter g m).
Proof. induction 1; cbn; [constructor| | |etransitivity; eassumption]. - destruct (g x); [constructor|]; assumption. - destruct (g x), (g y); try reflexivity. apply perm_swap. Qed.
Lemma fop_perm {A} (R : A -> A -> Prop) l m : (forall a b, R a b -> R b a) -> Permutation l m -> ForallOrdPairs R l -> ForallOrdPairs R m.
Proof.
  intros Sy P. induction P; intro H; [exact H| | |auto].
  - inversion H; subst. constructor; [eapply Permutation_Forall; eassumption|auto].
  - inversion H as [|? ? H1 H2]; subst. inversion H2 as [|? ? H3 H4]; subst. inversion H1; subst. constructor; [constructor; [apply Sy|]; assumption|]. constructor; assumption.
Qed.
Fixpoint chain (b : Z) (l : list wscn) : Prop := match l with [] => True | s :: r => if stored s then b <= v_off s /\ chain (v_off s + v_size s) r else chain b r end.
Lemma chain_filter b l : chain b (filter stored l) -> chain b l.
Proof. revert b; induction l as [|s r IH]; intros b H; [exact Logic.I|]. cbn in *. destruct (stored s) eqn:E; [|auto]. cbn in H. rewrite E in H. split; [apply H|apply IH; apply H]. Qed.
Lemma chain_sorted b l : StronglySorted sle l -> ForallOrdPairs (fun a b => apart (v_off a) (v_size a) (v_off b) (v_size b)) l ->
  Forall (fun s => stored s = true /\ b <= v_off s /\ 0 <= v_size s) l -> chain b l.
Proof.
  revert b; induction l as [|s r IH]; intros b H1 H2 H3; [exact Logic.I|]. cbn. inversion H1 as [|? ? H11 H12]; subst. inversion H2 as [|? ? H21 H22]; subst. inversion H3 as [|? ? H31 H32]; subst.
  rewrite (proj1 H31). split; [apply H31|]. apply IH; [assumption|assumption|]. rewrite Forall_forall in *. intros x X. specialize (H12 x X). specialize (H21 x X). specialize (H32 x X). unfold sle, apart in *. split; [apply H32|]. lia.
Qed.
Lemma placed_chain w : placed w -> chain (head_end w) (sort_scns (f_scns w)).
Proof.
  intro P. apply chain_filter. apply chain_sorted.
  - apply sorted_filter. apply sort_sorted.
  - eapply fop_perm; [|apply perm_filter; apply sort_perm|apply (pl_apart _ P)]. unfold apart. intros a b [H | H]; [right|left]; exact H.
  - rewrite Forall_forall. intros s H. apply filter_In in H as (H & K). apply (Permutation_in _ (Permutation_sym (sort_perm _))) in H.
    pose proof (proj1 (Forall_forall _ _) (pl_scns _ P) s H K) as Q. cbn beta in Q. split; [exact K|]. lia.
Qed.

(* ---------------- writing with pwrite ---------------- *)
Section writing.
  Variable byte : Z.
  Variable bo : bool.
  Variable cv : Z -> bytes -> bytes.
  Hypothesis cv_len : forall t b, zlen (cv t b) = zlen b.
  Variable w : wfile.
  Variable full : bool.
  Hypothesis full_ok : full = true -> f_dirty w = true /\ all_data w = true.
  Variable f0 : store.
  Notation WW := (W byte (f_start w) full f0).
  Let cv' := conv bo cv.

  Lemma conv_len t b : zlen (cv' t b) = zlen b.
  Proof. unfold cv', conv. destruct bo; [apply cv_len|reflexivity]. Qed.
  Lemma W_piece f L hi (d : bool) t b : WW f L hi -> WW (if d then put f hi (cv' t b) else f) (L ++ [piece_if cv' d hi t b]) (hi + zlen b).
  Proof.
    intro H. unfold piece_if. destruct d.
    - rewrite <- (conv_len t b). apply W_put. exact H.
    - apply W_keep; [apply zlen_nonneg|exact H].
  Qed.
  Lemma gap_step f L last fs target (c : bool) :
    WW f L last -> fillok byte fs -> last <= target -> (c = false -> full = false) ->
    exists (f' : store) (fs' : bytes * Z), (if (last <? target) && c then fill byte f last (target - last) fs else Ok (f, fs)) = Ok (f', fs') /\ fillok byte fs' /\ WW f' L target.
  Proof.
    intros H F T C. destruct ((last <? target) && c) eqn:G.
    - destruct (fill_ok byte f last (target - last) fs ltac:(lia) F) as (f' & fs' & E & K & Q). exists f', fs'. split; [exact E|]. split; [exact K|].
      apply W_gap with (f := f) (hi := last); [exact H|lia|]. intro q. rewrite Q. replace (last + (target - last)) with target by lia. reflexivity.
    - exists f, fs. split; [reflexivity|]. split; [exact F|]. apply W_skip with (hi := last); [exact H|exact T|]. destruct c; [right; lia|left; auto].
  Qed.
  Lemma write_blocks_ok s start : start = f_start w + v_off s -> forall bs f fs last prev ch b L,
    WW f L last -> fillok byte fs -> last <= start + b -> inside b bs (v_size s) ->
    exists st' ch', write_blocks byte bo cv w s start bs (Wst f fs last prev) ch = Ok (st', ch') /\ fillok byte (x_fill st') /\
      WW (x_f st') (L ++ map (fun x => piece_if cv' (v_flag s || w_dirty x || f_dirty w) (start + w_off x) (w_type x) (w_buf x)) bs) (x_last st') /\
      x_last st' <= start + v_size s /\ (bs <> [] -> start + b <= x_last st' /\ exists p n o, In (p, n, o) (map (fun x => piece_if cv' (v_flag s || w_dirty x || f_dirty w) (start + w_off x) (w_type x) (w_buf x)) bs) /\ p + n = x_last st').
  Proof.
    intro ST. induction bs as [|x r IH]; intros f fs last prev ch b L H F LB I.
    - cbn in *. eexists _, _. split; [reflexivity|]. cbn. rewrite app_nil_r. split; [exact F|]. split; [exact H|]. split; [lia|]. intro N; contradiction N; reflexivity.
    - cbn [inside] in I. destruct I as (I1 & I2). cbn [write_blocks x_last x_f x_fill x_prev]. cbv zeta.
      set (d := v_flag s || w_dirty x || f_dirty w) in *.
      destruct (gap_step f L last fs (start + w_off x) (prev && (w_off x =? 0) || d) H F ltac:(lia)) as (f1 & fs1 & E1 & F1 & H1).
      { intro C. destruct full; [|reflexivity]. destruct (full_ok eq_refl) as (X & _). unfold d in C. rewrite X in C. rewrite !orb_true_r in C. discriminate. }
      rewrite E1. cbn [obind]. pose proof (zlen_nonneg _ (w_buf x)) as ZN.
      pose proof (W_piece f1 L (start + w_off x) d (w_type x) (w_buf x) H1) as H2.
      destruct (IH (if d then put f1 (start + w_off x) (conv bo cv (w_type x) (w_buf x)) else f1) fs1 (start + w_off x + zlen (w_buf x)) prev (ch || d) (w_off x + zlen (w_buf x)) (L ++ [piece_if cv' d (start + w_off x) (w_type x) (w_buf x)]) H2 F1 ltac:(lia) I2)
        as (st' & ch' & E2 & F2 & H3 & LL & N2).
      exists st', ch'. split; [exact E2|]. split; [exact F2|]. split; [rewrite <- app_assoc in H3; exact H3|]. split; [exact LL|]. intros _. destruct r as [|y r'].
      + cbn in E2. injection E2 as <- <-. cbn [x_last]. split; [lia|]. exists (start + w_off x), (zlen (w_buf x)), (if d then Some (cv' (w_type x) (w_buf x)) else None). split; [left; reflexivity|reflexivity].
      + destruct N2 as (N3 & p & n & o & N4 & N5); [discriminate|]. split; [lia|]. exists p, n, o. split; [right; exact N4|exact N5].
  Qed.

  Definition scn_wf (s : wscn) : Prop := stored s = true -> 0 <= v_size s /\ match v_data s with None => True | Some bs => bs <> [] /\ inside 0 bs (v_size s) end.
  (* where the writing of a list of sections ends *)
  Definition end_ok (l : list wscn) (last last' : Z) : Prop :=
    (last' = last /\ Forall (fun s => stored s = false) l) \/
    (exists s, In s l /\ stored s = true /\ f_start w + v_off s <= last' <= f_start w + v_off s + v_size s /\ exists p n o, In (p, n, o) (scn_pieces cv' w s) /\ p + n = last').
  Lemma write_scns_ok l : Forall scn_wf l -> Forall (fun s => v_index s = 0 -> v_flag s = false) l -> (forall s, In s l -> In s (f_scns w)) ->
    forall f fs last prev b L, WW f L last -> fillok byte fs -> last <= f_start w + b -> chain b l ->
    exists st', write_scns byte bo cv w l (Wst f fs last prev) = Ok st' /\ fillok byte (x_fill st') /\ WW (x_f st') (L ++ flat_map (scn_pieces cv' w) l) (x_last st') /\ end_ok l last (x_last st').
  Proof.
    induction l as [|s r IH]; intros FW FZ SUB f fs last prev b L H F LB CH.
    - cbn. eexists. split; [reflexivity|]. cbn. rewrite app_nil_r. split; [exact F|]. split; [exact H|]. left. split; [reflexivity|constructor].
    - inversion FW as [|? ? FW1 FW2]; subst. inversion FZ as [|? ? FZ1 FZ2]; subst. specialize (fun H1 => IH FW2 FZ2 H1). specialize (IH (fun x X => SUB x (or_intror X))).
      cbn [write_scns chain] in *. unfold write_scn. destruct (v_index s =? 0) eqn:Z0.
      { assert (ST : stored s = false) by (unfold stored; rewrite Z0; reflexivity). rewrite ST in CH. rewrite (FZ1 ltac:(lia)). cbn [obind]. destruct (IH f fs last prev b L H F LB CH) as (st' & E & F' & H' & EN).
        exists st'. split; [exact E|]. split; [exact F'|]. split; [cbn [flat_map]; unfold scn_pieces at 1; rewrite ST; exact H'|].
        destruct EN as [(E1 & E2) | (x & E1 & E2)]; [left; split; [exact E1|constructor; assumption]|right; exists x; split; [right; exact E1|exact E2]]. }
      destruct (v_type s =? SHT_NOBITS) eqn:NB.
      { assert (ST : stored s = false) by (unfold stored; unfold SHT_NOBITS in NB; rewrite NB, andb_false_r; reflexivity). rewrite ST in CH. cbn [obind]. destruct (IH f fs last prev b L H F LB CH) as (st' & E & F' & H' & EN).
        exists st'. split; [exact E|]. split; [exact F'|]. split; [cbn [flat_map]; unfold scn_pieces at 1; rewrite ST; exact H'|].
        destruct EN as [(E1 & E2) | (x & E1 & E2)]; [left; split; [exact E1|constructor; assumption]|right; exists x; split; [right; exact E1|exact E2]]. }
      assert (ST : stored s = true) by (unfold stored; unfold SHT_NOBITS in NB; rewrite Z0, NB; reflexivity). rewrite ST in CH. destruct CH as (C1 & C2). destruct (FW1 ST) as (SZ & DT).
      assert (PS : scn_pieces cv' w s = match v_data s with Some bs => map (fun b => piece_if cv' (v_flag s || w_dirty b || f_dirty w) (f_start w + v_off s + w_off b) (w_type b) (w_buf b)) bs | None => [(f_start w + v_off s, v_size s, None)] end).
      { unfold scn_pieces. rewrite ST. reflexivity. }
      assert (STEP : exists st1, (match v_data s with
        | Some bs => ' (st, changed) <- write_blocks byte bo cv w s (f_start w + v_off s) bs (Wst f fs last prev) false ;; Ok (Wst (x_f st) (x_fill st) (x_last st) changed)
        | None => ' (g, gs) <- (if (last <? f_start w + v_off s) && prev then fill byte f last (f_start w + v_off s - last) fs else Ok (f, fs)) ;; Ok (Wst g gs (f_start w + v_off s + v_size s) false) end) = Ok st1 /\
        fillok byte (x_fill st1) /\ WW (x_f st1) (L ++ scn_pieces cv' w s) (x_last st1) /\ f_start w + v_off s <= x_last st1 <= f_start w + v_off s + v_size s /\ exists p n o, In (p, n, o) (scn_pieces cv' w s) /\ p + n = x_last st1).
      { rewrite PS. destruct (v_data s) as [bs|] eqn:DA.
        - destruct DT as (D1 & D2). destruct (write_blocks_ok s (f_start w + v_off s) eq_refl bs f fs last prev false 0 L H F ltac:(lia) D2) as (st1 & ch & E & F1 & H1 & LL & N1). rewrite E. cbn [obind].
          eexists. split; [reflexivity|]. cbn [x_fill x_f x_last]. destruct (N1 D1) as (N2 & N3). split; [exact F1|]. split; [exact H1|]. split; [lia|exact N3].
        - destruct (gap_step f L last fs (f_start w + v_off s) prev H F ltac:(lia)) as (f1 & fs1 & E1 & F1 & H1).
          { intros _. destruct full; [|reflexivity]. destruct (full_ok eq_refl) as (_ & X). unfold all_data in X. rewrite forallb_forall in X. specialize (X s (SUB s (or_introl eq_refl))). cbv beta in X. rewrite ST, DA in X. discriminate. }
          rewrite E1. cbn [obind]. eexists. split; [reflexivity|]. cbn [x_fill x_f x_last]. split; [exact F1|]. split; [apply W_keep; [exact SZ|exact H1]|]. split; [lia|]. exists (f_start w + v_off s), (v_size s), None. split; [left; reflexivity|reflexivity]. }
      destruct STEP as (st1 & E1 & F1 & H1 & LL & NN). cbv zeta. cbn [x_last x_f x_fill x_prev]. rewrite E1. cbn [obind]. destruct st1 as [g gs last1 prev1]. cbn [x_fill x_f x_last] in *.
      destruct (IH g gs last1 prev1 (v_off s + v_size s) (L ++ scn_pieces cv' w s) H1 F1 ltac:(lia) C2) as (st' & E & F' & H' & EN).
      exists st'. split; [exact E|]. split; [exact F'|]. split; [cbn [flat_map]; rewrite <- app_assoc in H'; exact H'|]. right.
      destruct EN as [(E2 & E3) | (x & E2 & E3)]; [exists s; split; [left; reflexivity|]; split; [exact ST|]; rewrite E2; split; [lia|exact NN]|exists x; split; [right; exact E2|exact E3]].
  Qed.
End writing.

(* ---------------- the section header table, the end of the file ---------------- *)
Lemma fold_max l x : In x l -> x <= fold_right Z.max 0 l.
Proof. induction l as [|y r IH]; intros H; [destruct H|]. cbn. destruct H as [-> | H]; [lia|]. specialize (IH H). lia. Qed.
Lemma fold_max_le l h : 0 <= h -> Forall (fun x => x <= h) l -> fold_right Z.max 0 l <= h.
Proof. intros H F. induction F; cbn; lia. Qed.
Definition ends (l : list piece) : list Z := map (fun x => fst (fst x) + snd (fst x)) l.
Lemma ends_pieces cv ch cv2 ch2 w : ends (pieces cv ch w) = ends (pieces cv2 ch2 w).
Proof.
  unfold pieces, ends. rewrite !map_app. f_equal; [|f_equal].
  - unfold head_pieces. cbn. f_equal. destruct (f_phdrs w); reflexivity.
  - induction (f_scns w) as [|s r IH]; [reflexivity|]. cbn. rewrite !map_app, IH. f_equal. unfold scn_pieces. destruct (stored s); [|reflexivity]. destruct (v_data s) as [bs|]; [|reflexivity]. rewrite !map_map. reflexivity.
  - unfold table_pieces. rewrite !map_map. reflexivity.
Qed.
Lemma file_end_is cv ch w hi : 0 <= hi -> (forall p n o, In (p, n, o) (pieces cv ch w) -> p + n <= hi) -> (exists p n o, In (p, n, o) (pieces cv ch w) /\ p + n = hi) -> file_end w = hi.
Proof.
  intros H A (p & n & o & I & E). unfold file_end. fold (ends (pieces (fun _ b => b) (fun _ => false) w)). rewrite (ends_pieces _ _ cv ch). apply Z.le_antisymm.
  - apply fold_max_le; [exact H|]. unfold ends. rewrite Forall_map, Forall_forall. intros ((p1, n1), o1) X. cbn. eapply A; eauto.
  - apply fold_max. unfold ends. rewrite <- E. apply (in_map (fun x => fst (fst x) + snd (fst x)) _ _ I).
Qed.
Lemma W_done byte lo full f0 f L hi cv ch w : W byte lo full f0 f L hi -> 0 <= lo -> (forall x, In x L <-> In x (pieces cv ch w)) -> (exists p n o, In (p, n, o) L /\ p + n = hi) ->
  file_is byte full lo (file_end w) (pieces cv ch w) f0 f.
Proof.
  intros ((A & B & C & D) & E & G) L0 EQ (p & n & o & I & X).
  rewrite (file_end_is cv ch w hi); [|lia| |exists p, n, o; split; [apply EQ; exact I|exact X]].
  2: { intros p1 n1 o1 Y. apply EQ in Y. destruct (E _ _ _ Y) as (_ & _ & E3 & _). exact E3. }
  split; [intros p1 n1 b i Y; eapply A; apply EQ; exact Y|]. split; [intros p1 n1 q Y; eapply B; apply EQ; exact Y|]. split; [exact C|]. intros q Q N. apply D; [exact Q|]. intros p1 n1 o1 Y. apply (N p1 n1 o1). apply EQ. exact Y.
Qed.
Lemma inside_le b bs hi : inside b bs hi -> b <= hi.
Proof. revert b; induction bs as [|x r IH]; intros b H; cbn in H; [exact H|]. destruct H as (H1 & H2). apply IH in H2. pose proof (zlen_nonneg _ (w_buf x)). lia. Qed.
Lemma inside_in b bs hi x : inside b bs hi -> In x bs -> b <= w_off x /\ w_off x + zlen (w_buf x) <= hi.
Proof.
  revert b; induction bs as [|y r IH]; intros b H I; [destruct I|]. cbn in H. destruct H as (H1 & H2). destruct I as [-> | I]; [split; [exact H1|apply inside_le in H2; exact H2]|].
  pose proof (zlen_nonneg _ (w_buf y)). destruct (IH _ H2 I). lia.
Qed.
Lemma scn_pieces_in cv w s p n o : scn_wf s -> In (p, n, o) (scn_pieces cv w s) -> stored s = true /\ f_start w + v_off s <= p /\ 0 <= n /\ p + n <= f_start w + v_off s + v_size s.
Proof.
  intros SW I. unfold scn_pieces in I. destruct (stored s) eqn:ST; [|destruct I]. destruct (SW ST) as (S1 & S2). split; [reflexivity|]. destruct (v_data s) as [bs|].
  - apply in_map_iff in I as (b & E & I). unfold piece_if in E. injection E as <- <- _. destruct (inside_in _ _ _ b (proj2 S2) I) as (Q1 & Q2). pose proof (zlen_nonneg _ (w_buf b)) as Q3. clear S2. lia.
  - destruct I as [I | []]. injection I as <- <- _. clear - S1. lia.
Qed.
Lemma znth_concat k (l : list bytes) i j : Forall (fun b => zlen b = k) l -> 0 <= i < zlen l -> 0 <= j < k -> znth (concat l) (i * k + j) = match znth l i with Some b => znth b j | None => None end.
Proof.
  intros F. revert i; induction F as [|b r B F IH]; intros i I J; [unfold zlen in I; cbn in I; lia|]. rewrite zlen_cons in I. cbn [concat]. destruct (Z.eq_dec i 0) as [-> | N].
  - rewrite znth_0. apply znth_app_l. lia.
  - rewrite znth_app_r by nia. replace (i * k + j - zlen b) with ((i - 1) * k + j) by nia. rewrite (IH (i - 1)); [|clear - I N; unfold bytes in *; lia|exact J]. assert (SC : znth (b :: r) (i - 1 + 1) = znth r (i - 1)) by (apply znth_succ; lia). replace (i - 1 + 1) with i in SC by lia. unfold bytes in *. rewrite SC. reflexivity.
Qed.
Lemma zlen_concat k (l : list bytes) : Forall (fun b => zlen b = k) l -> zlen (concat l) = zlen l * k.
Proof. induction 1 as [|b r B F IH]; [reflexivity|]. cbn [concat]. rewrite zlen_app, zlen_cons. unfold bytes in *. rewrite IH, B. ring. Qed.
Lemma zlen_map {A B} (g : A -> B) l : zlen (map g l) = zlen l.
Proof. unfold zlen. rewrite map_length. reflexivity. Qed.
Lemma In_znth {A} (l : list A) x : In x l -> exists i, znth l i = Some x.
Proof.
  intro H. apply In_nth_error in H as (k & K). exists (Z.of_nat k). unfold znth. assert (L : (k < length l)%nat) by (apply nth_error_Some; congruence).
  replace ((0 <=? Z.of_nat k) && (Z.of_nat k <? zlen l)) with true by (unfold zlen; lia). rewrite Nat2Z.id. exact K.
Qed.
(* the entries tile the table *)
Lemma tiles w cv ch q : placed w -> f_start w + f_shoff w <= q < f_start w + f_shoff w + zlen (f_scns w) * f_shent w ->
  exists a m o, In (a, m, o) (table_pieces cv ch w) /\ a <= q < a + m.
Proof.
  intros P Q. assert (K : 0 < f_shent w). { pose proof (zlen_nonneg _ (f_scns w)). destruct (f_scns w) as [|s r] eqn:E; [unfold zlen in Q; cbn in Q; lia|]. pose proof (pl_image _ P) as I. rewrite E in I. inversion I as [|? ? I1 I2]; subst. pose proof (zlen_nonneg _ (v_img s)). nia. }
  set (d := q - (f_start w + f_shoff w)). assert (D : d = f_shent w * (d / f_shent w) + d mod f_shent w) by (apply Z.div_mod; lia). pose proof (Z.mod_pos_bound d (f_shent w) K) as M.
  assert (I : 0 <= d / f_shent w < zlen (f_scns w)) by (split; [apply Z.div_pos; lia|apply Z.div_lt_upper_bound; lia]).
  destruct (znth_in _ _ _ I) as (s & S1). pose proof (pl_index _ P _ _ S1) as IX. pose proof (proj1 (Forall_forall _ _) (pl_image _ P) s (znth_In _ _ _ _ S1)) as IM. cbn beta in IM.
  exists (f_start w + f_shoff w + v_index s * f_shent w), (zlen (v_img s)), (if ch s then Some (cv 9 (v_img s)) else None). split.
  - unfold table_pieces. apply in_map_iff. exists s. split; [reflexivity|]. eapply znth_In; eauto.
  - rewrite IX, IM. lia.
Qed.
Lemma table_pieces_in w cv ch a m o : placed w -> In (a, m, o) (table_pieces cv ch w) ->
  exists s, In s (f_scns w) /\ a = f_start w + f_shoff w + v_index s * f_shent w /\ m = f_shent w /\ 0 <= v_index s < zlen (f_scns w) /\ o = (if ch s then Some (cv 9 (v_img s)) else None) /\ znth (f_scns w) (v_index s) = Some s.
Proof.
  intros P I. unfold table_pieces in I. apply in_map_iff in I as (s & E & I). unfold piece_if in E. injection E as <- <- <-. exists s. pose proof (proj1 (Forall_forall _ _) (pl_image _ P) s I) as IM. cbn beta in IM.
  destruct (In_znth _ _ I) as (k & ZN).
  pose proof (pl_index _ P _ _ ZN) as IX. pose proof (znth_range _ _ _ _ ZN). rewrite IX. repeat split; try assumption; try lia.
Qed.

Section whole.
  Variable byte : Z.
  Variable bo : bool.
  Variable cv : Z -> bytes -> bytes.
  Hypothesis cv_len : forall t b, zlen (cv t b) = zlen b.
  Variable w : wfile.
  Hypothesis P : placed w.
  Variable f0 : store.
  Let full := f_dirty w && all_data w.
  Notation WW := (W byte (f_start w) full f0).
  Let full_ok : full = true -> f_dirty w = true /\ all_data w = true.
  Proof. unfold full. intro H. apply andb_prop in H. exact H. Qed.
  Let tend := zlen (f_scns w) * f_shent w.

  Lemma tend_nonneg : 0 <= tend.
  Proof using P. clear cv_len cv. unfold tend. destruct (f_scns w) as [|s r] eqn:E; [reflexivity|]. pose proof (pl_image _ P) as I. rewrite E in I. inversion I as [|? ? I1 I2]; subst. pose proof (zlen_nonneg _ (v_img s)). pose proof (zlen_nonneg _ (s :: r)). nia. Qed.
  Lemma scn_wf_all l : Permutation (f_scns w) l -> Forall scn_wf l.
  Proof. intro H. eapply Permutation_Forall; [exact H|]. eapply Forall_impl; [|apply (pl_scns _ P)]. intros s A B. destruct (A B) as (_ & C). exact C. Qed.
  Lemma head_in p n o : In (p, n, o) (head_pieces (conv bo cv) w) -> p + n <= f_start w + head_end w.
  Proof.
    unfold head_pieces, piece_if, head_end. pose proof (pl_head _ P) as H1. pose proof (pl_phdr _ P) as H2. intros [E | E].
    - injection E as <- <- _. destruct (f_phdrs w) as [ph|]; [pose proof (zlen_nonneg _ ph)|]; lia.
    - destruct (f_phdrs w) as [ph|]; [|destruct E]. destruct E as [E | []]. injection E as <- <- _. lia.
  Qed.
  Lemma pieces_apart l p n o : Permutation (f_scns w) l -> In (p, n, o) (head_pieces (conv bo cv) w ++ flat_map (scn_pieces (conv bo cv) w) l) -> apart p n (f_start w + f_shoff w) tend.
  Proof.
    intros PM I. destruct (pl_table _ P) as (T1 & T2). apply in_app_or in I as [I | I].
    - apply head_in in I. left. lia.
    - apply in_flat_map in I as (s & I & J). pose proof (proj1 (Forall_forall _ _) (scn_wf_all l PM) s I) as SW. apply scn_pieces_in in J; [|exact SW]. destruct J as (J1 & J2 & J3 & J4).
      apply (Permutation_in _ (Permutation_sym PM)) in I. pose proof (proj1 (Forall_forall _ _) T2 s I J1) as A. cbn beta in A. unfold apart in *. fold tend in A. lia.
  Qed.
  (* the file when the table has been dealt with *)
  Lemma finish f f' L hi (ch : wscn -> bool) l : Permutation (f_scns w) l -> f_scns w <> [] -> L = head_pieces (conv bo cv) w ++ flat_map (scn_pieces (conv bo cv) w) l ->
    WW f L hi -> f_start w + f_shoff w + tend <= hi \/ f_start w + f_shoff w = hi ->
    ((exists p n o, In (p, n, o) L /\ p + n = hi) \/ hi <= f_start w + f_shoff w + tend) ->
    (forall q, q < f_start w + f_shoff w \/ f_start w + f_shoff w + tend <= q -> f' q = f q) ->
    (forall s, In s (f_scns w) -> let a := f_start w + f_shoff w + v_index s * f_shent w in
       if ch s then forall i, 0 <= i < zlen (v_img s) -> Some (f' (a + i)) = znth (conv bo cv 9 (v_img s)) i else forall q, a <= q < a + f_shent w -> f' q = f0 q) ->
    file_is byte full (f_start w) (file_end w) (pieces (conv bo cv) ch w) f0 f'.
  Proof.
    intros PM NE LE H HI AT OUT INN. pose proof tend_nonneg as TN.
    assert (HH : 0 <= f_shoff w). { destruct (pl_table _ P) as (T1 & _). pose proof (pl_head _ P) as A1. pose proof (pl_phdr _ P) as A2. pose proof (zlen_nonneg _ (f_eimg w)). unfold head_end in T1. destruct (f_phdrs w) as [ph|]; [pose proof (zlen_nonneg _ ph)|]; lia. }
    assert (V : WW f' (L ++ table_pieces (conv bo cv) ch w) (Z.max hi (f_start w + f_shoff w + tend))).
    { eapply W_over; [exact H|exact TN|lia|exact HI| |exact OUT| |].
      - intros a m o I. subst L. eapply pieces_apart; eauto.
      - intros q Q. apply tiles; [exact P|exact Q].
      - intros a m o I. apply table_pieces_in in I; [|exact P]. destruct I as (s & I1 & I2 & I3 & I4 & I5 & I6). specialize (INN s I1). cbv zeta in INN. rewrite <- I2 in INN.
        pose proof (proj1 (Forall_forall _ _) (pl_image _ P) s I1) as IM. cbn beta in IM. pose proof (zlen_nonneg _ (v_img s)). unfold tend. split; [nia|]. split; [lia|]. split; [nia|]. rewrite I5. destruct (ch s).
        + assert (CL : zlen (conv bo cv 9 (v_img s)) = zlen (v_img s)) by (unfold conv; destruct bo; [apply cv_len|reflexivity]). split; [lia|]. intros i Hi. apply INN. lia.
        + rewrite I3. exact INN. }
    eapply W_done; [exact V|apply (pl_start _ P)| |].
    - intro x. unfold pieces. rewrite LE. rewrite !in_app_iff. rewrite <- or_assoc. assert (Q : In x (flat_map (scn_pieces (conv bo cv) w) l) <-> In x (flat_map (scn_pieces (conv bo cv) w) (f_scns w))); [|tauto].
      rewrite !in_flat_map. split; intros (s & A & B); exists s; (split; [|exact B]); [eapply Permutation_in; [apply Permutation_sym; exact PM|exact A]|eapply Permutation_in; [exact PM|exact A]].
    - assert (LASTT : exists p n o, In (p, n, o) (L ++ table_pieces (conv bo cv) ch w) /\ p + n = f_start w + f_shoff w + tend).
      { assert (ZP : 0 <= zlen (f_scns w) - 1 < zlen (f_scns w)). { destruct (f_scns w) as [|s r]; [contradiction|]. rewrite zlen_cons. pose proof (zlen_nonneg _ r). lia. }
        destruct (znth_in _ _ _ ZP) as (s & S1). pose proof (pl_index _ P _ _ S1) as IX. pose proof (proj1 (Forall_forall _ _) (pl_image _ P) s (znth_In _ _ _ _ S1)) as IM. cbn beta in IM.
        exists (f_start w + f_shoff w + v_index s * f_shent w), (zlen (v_img s)), (if ch s then Some (conv bo cv 9 (v_img s)) else None). split.
        - apply in_or_app. right. unfold table_pieces. apply in_map_iff. exists s. split; [reflexivity|]. eapply znth_In; eauto.
        - rewrite IX, IM. unfold tend. lia. }
      destruct AT as [(p & n & o & A1 & A2) | A].
      + destruct (Z_le_dec (f_start w + f_shoff w + tend) hi).
        * exists p, n, o. split; [apply in_or_app; left; exact A1|lia].
        * destruct LASTT as (p1 & n1 & o1 & B1 & B2). exists p1, n1, o1. split; [exact B1|lia].
      + destruct LASTT as (p1 & n1 & o1 & B1 & B2). exists p1, n1, o1. split; [exact B1|lia].
  Qed.
  Lemma put_table f (ch : wscn -> bool) : (forall s, ch s = true) -> let t := concat (map (fun s => conv bo cv 9 (v_img s)) (f_scns w)) in
    zlen t = tend /\ (forall s, In s (f_scns w) -> let a := f_start w + f_shoff w + v_index s * f_shent w in
       if ch s then forall i, 0 <= i < zlen (v_img s) -> Some (put f (f_start w + f_shoff w) t (a + i)) = znth (conv bo cv 9 (v_img s)) i else forall q, a <= q < a + f_shent w -> put f (f_start w + f_shoff w) t q = f0 q).
  Proof.
    intros CH t. assert (FL : Forall (fun b => zlen b = f_shent w) (map (fun s => conv bo cv 9 (v_img s)) (f_scns w))).
    { rewrite Forall_map. eapply Forall_impl; [|apply (pl_image _ P)]. intros s H. cbn beta in *. unfold conv. destruct bo; [rewrite cv_len|]; exact H. }
    assert (ZT : zlen t = tend) by (unfold t; rewrite (zlen_concat _ _ FL), zlen_map; reflexivity). split; [exact ZT|].
    intros s I a. rewrite CH. intros i Hi. pose proof (proj1 (Forall_forall _ _) (pl_image _ P) s I) as IM. cbn beta in IM.
    assert (IT : In (piece_if (conv bo cv) true (f_start w + f_shoff w + v_index s * f_shent w) 9 (v_img s)) (table_pieces (conv bo cv) (fun _ => true) w)) by (unfold table_pieces; apply in_map_iff; exists s; split; [reflexivity|exact I]).
    apply table_pieces_in in IT; [|exact P]. destruct IT as (s2 & A1 & A2 & A3 & A4 & A5 & A6). injection A5 as A5.
    assert (ZI : znth (f_scns w) (v_index s) = Some s).
    { destruct (In_znth _ _ I) as (k & ZN). rewrite (pl_index _ P _ _ ZN). exact ZN. }
    pose proof (znth_range _ _ _ _ ZI) as R. unfold a. replace (f_start w + f_shoff w + v_index s * f_shent w + i) with (f_start w + f_shoff w + (v_index s * f_shent w + i)) by lia.
    rewrite put_in; [|rewrite ZT; unfold tend; nia]. unfold t. rewrite (znth_concat (f_shent w)); [|exact FL|rewrite zlen_map; lia|lia]. rewrite znth_map, ZI. reflexivity.
  Qed.
End whole.
