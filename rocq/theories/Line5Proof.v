(* The tables of version 5: proofs for LineProps. *)
From Verif Require Import Base LebModel LebSpec LebProof DwModel Slice CfiSpec CfiModel CfiProof CfiSafe FormModel FormSpec FormProps ReadProps LineModel LineSpec Line5Spec LineProof ArangeProps.
Require Import ZArith List Lia Bool ZifyBool. Import ListNotations. Open Scope Z_scope.

Lemma last_of_spec : forall d l, match last_of d l with
  | Some k => (exists f, nth_error l k = Some (d, f)) /\ forall j f, (k < j)%nat -> nth_error l j <> Some (d, f)
  | None => forall j f, nth_error l j <> Some (d, f) end.
Proof.
  intros d l. unfold last_of.
  assert (G : forall n, (n <= length l)%nat -> match fold_left (fun r i => match nth_error l i with Some (d', _) => if d' =? d then Some i else r | None => r end) (seq 0 n) None with
    | Some k => (k < n)%nat /\ (exists f, nth_error l k = Some (d, f)) /\ forall j f, (k < j < n)%nat -> nth_error l j <> Some (d, f)
    | None => forall j f, (j < n)%nat -> nth_error l j <> Some (d, f) end).
  { induction n as [|n IH]; intro L; [cbn; intros; lia|]. rewrite seq_S, fold_left_app. cbn [fold_left plus]. specialize (IH ltac:(lia)).
    destruct (nth_error l n) as [[d' f']|] eqn:E; [|apply nth_error_None in E; lia]. destruct (d' =? d) eqn:D.
    - apply Z.eqb_eq in D. subst d'. split; [lia|]. split; [exists f'; exact E|]. intros; lia.
    - destruct (fold_left _ _ _) as [k|].
      + destruct IH as (K & X & Y). split; [lia|]. split; [exact X|]. intros j f J C. destruct (Nat.eq_dec j n) as [->|]; [rewrite E in C; injection C as -> _; lia|]. apply (Y j f); [lia|exact C].
      + intros j f J C. destruct (Nat.eq_dec j n) as [->|]; [rewrite E in C; injection C as -> _; lia|]. apply (IH j f); [lia|exact C]. }
  specialize (G (length l) (Nat.le_refl _)). destruct (fold_left _ _ _) as [k|].
  - destruct G as (K & X & Y). split; [exact X|]. intros j f J C. assert (j < length l)%nat by (apply nth_error_Some; congruence). apply (Y j f); [lia|exact C].
  - intros j f C. assert (j < length l)%nat by (apply nth_error_Some; congruence). exact (G j f H C).
Qed.
(* a content type that occurs once *)
Definition once (t : Z) (l : list (Z * Z)) : Prop := forall i j f g, nth_error l i = Some (t, f) -> nth_error l j = Some (t, g) -> i = j.
Lemma last_of_once : forall t l, once t l -> forall k t' f, nth_error l k = Some (t', f) -> (last_of t l = Some k <-> t' = t).
Proof.
  intros t l O k t' f E. pose proof (last_of_spec t l) as L. split.
  - intro Q. rewrite Q in L. destruct L as ((g & X) & _). rewrite E in X. injection X as -> _. reflexivity.
  - intros ->. destruct (last_of t l) as [i|]; [|destruct (L k f E)]. destruct L as ((g & X) & _). f_equal. exact (O i k g f X E).
Qed.
Lemma last_of_in : forall t l, In t (map fst l) -> is_some (last_of t l) = true.
Proof.
  intros t l I. pose proof (last_of_spec t l) as L. destruct (last_of t l); [reflexivity|]. exfalso. apply in_map_iff in I as ([t' f] & <- & I). apply In_nth_error in I as [k K]. exact (L k f K).
Qed.

Lemma valid_form : forall f, In f user_forms -> valid_user_form f = true /\ 0 <= f < 65536.
Proof. intros f H. cbn in H. repeat (destruct H as [<- | H]; [split; [reflexivity|lia]|]). destruct H. Qed.
Lemma columns_ok : forall c e, e <= zlen (n_mem c) -> zlen (n_mem c) < two63 -> forall l b, columns l b -> forall p, at_ (n_mem c) p b -> p + zlen b <= e -> formats c (length l) p e = Ok (l, p + zlen b).
Proof.
  intros c e EM M. induction 1 as [|t f l xt xf b UT UF T F H IH]; intros p A E; [cbn; do 2 f_equal; lia|]. cbn [length formats].
  rewrite !zlen_app in *. pose proof (zlen_nonneg _ b). pose proof (uleb_len _ _ UT). pose proof (uleb_len _ _ UF). destruct (at_bound _ _ _ A) as [P0 _]. destruct (valid_form f F) as [VF FB].
  rewrite u64_small by lia. replace (e - p <? 1) with false by lia. rewrite (uleb_at _ _ e _ _ UT (at_app1 _ _ _ _ A)) by lia. cbn [obind]. apply at_app2 in A.
  rewrite u64_small by lia. replace (e - (p + zlen xt) <? 1) with false by lia. rewrite (uleb_at _ _ e _ _ UF (at_app1 _ _ _ _ A)) by lia. cbn [obind]. apply at_app2 in A.
  unfold u16. pose proof (uleb_of_nonneg _ _ UT). rewrite !Z.mod_small by lia. rewrite VF. cbn [negb]. rewrite (IH _ A) by lia. cbn [obind]. do 2 f_equal. lia.
Qed.

(* The fake unit *)
Definition m_of (c : lctx) (osize : Z) : FormSpec.params := FormSpec.Params (n_fle c) (n_asize c) osize 5.
Section Unit5.
  Variables (c : lctx) (start e osize : Z).
  Hypothesis AS : n_asize c = 4 \/ n_asize c = 8.
  Hypothesis OS : osize = 4 \/ osize = 8.
  Hypothesis EM : e <= zlen (n_mem c).
  Hypothesis M : zlen (n_mem c) < two63.
  Hypothesis S32 : e - start < two32.
  Let u := fake_cu c start e osize.
  Lemma fake_has : forall code f v b p, holds (m_of c osize) f v b -> at_ (n_mem c) p b -> p + zlen b <= e -> has_value u (Attr code f p []) v b.
  Proof. intros code f v b p H A E. split; [split; assumption|]. split; [exact EM|]. split; [exact M|]. split; [exact H|]. split; [exact A|exact E]. Qed.
  Lemma fake_len : forall f v b p, holds (m_of c osize) f v b -> start <= p -> at_ (n_mem c) p b -> p + zlen b <= e -> val_len u f p = Ok (zlen b).
  Proof. intros f v b p H P A E. apply (C34_size_partial u f v b p); [split; assumption|cbn; lia|exact H|exact A|exact E|cbn; lia]. Qed.
  Lemma c_string_ok : forall d o s, text s -> at_ d o (s ++ [0]) -> c_string d o = Ok s.
  Proof.
    intros d o s [T _] A. destruct (at_bound _ _ _ A) as [O0 O1]. rewrite zlen_app in O1. change (zlen [0]) with 1 in O1. pose proof (zlen_nonneg _ s). unfold c_string. assert (L : (length s <= S (length d))%nat) by (unfold zlen in O1; lia).
    rewrite (memchr0_found s [] d o (zlen d + 1 - o)) by (try assumption; lia). cbn [obind]. f_equal. replace (o + zlen s - o) with (zlen s) by lia. apply (at_app1 _ _ _ _ A).
  Qed.
  Lemma path_ok : forall f v b p s, holds (m_of c osize) f v b -> spells (n_str c) (n_lstr c) f v s -> at_ (n_mem c) p b -> p + zlen b <= e ->
    exists pl, formstring u (Attr 3 f p []) (n_str c) (n_lstr c) (n_stro c) (Some 0) = Ok pl /\ str_bytes c pl = Ok s.
  Proof.
    intros f v b p s H SP A E. pose proof (fake_has 3 _ _ _ _ H A E) as HV. destruct SP as [s T|d o s SD T AD|d o s SD T AD].
    - destruct (C49_string u (Attr 3 8 p []) s b (n_str c) (n_lstr c) (n_stro c) (Some 0) HV eq_refl) as (q & F & AQ). exists (InUnit q). split; [exact F|]. exact (c_string_ok _ _ _ T AQ).
    - exists (InStr o). destruct (at_bound _ _ _ AD) as [O0 O1]. rewrite zlen_app in O1. change (zlen [0]) with 1 in O1. pose proof (zlen_nonneg _ s). rewrite SD. split; [apply (C49_strp u _ o b d _ _ _ HV eq_refl); lia|]. cbn. rewrite SD. exact (c_string_ok _ _ _ T AD).
    - exists (InLineStr o). destruct (at_bound _ _ _ AD) as [O0 O1]. rewrite zlen_app in O1. change (zlen [0]) with 1 in O1. pose proof (zlen_nonneg _ s). split; [|cbn; rewrite SD; exact (c_string_ok _ _ _ T AD)].
      destruct (fixed_read u _ _ b osize HV) as (n & EQ & N & R & P & W); [cbn; tauto|]. injection EQ as <-. cbn [a_valp u_fle u_mem u_endp u fake_cu] in R, P, W.
      unfold formstring. cbn. rewrite SD. unfold read_offset, read_address, in_section, offset_in_section.
      replace (negb ((p <? 0) || (zlen (n_mem c) <? osize) || (zlen (n_mem c) - osize <? p))) with true by lia.
      replace (rd (n_fle c) (n_mem c) p (if osize =? 4 then 4 else 8)) with (@Ok Z o) by (destruct OS as [-> | ->]; symmetry; exact R). cbn [obind]. replace ((zlen d <? o) || (zlen d <? 1) || (zlen d - 1 <? o)) with false by lia. reflexivity.
  Qed.
  Lemma dir_ok : forall f n b p, holds (m_of c osize) f (Unsigned n) b -> In f [11; 5; 15] -> at_ (n_mem c) p b -> p + zlen b <= e -> formudata u (Attr 58 f p []) true = Ok n.
  Proof.
    intros f n b p H F A E. pose proof (fake_has 58 _ _ _ _ H A E) as HV. destruct (C49_udata u _ _ _ HV) as (n' & EQ & R); [cbn in F |- *; tauto|]. injection EQ as ->. exact R.
  Qed.
  (* Is the entry's position k the one of a given content type? *)
  Definition points (o : option nat) (t m : nat) (ct : Z) (l : list (Z * Z)) : Prop := forall k t' f, nth_error l k = Some (t', f) -> (o = Some (m + k)%nat <-> t' = ct).
  Definition here (o : option nat) (m : nat) : bool := match o with Some i => Nat.eqb i m | None => false end.
  Lemma here_iff : forall o m, here o m = true <-> o = Some m.
  Proof. intros [i|] m; cbn; [rewrite Nat.eqb_eq; split; congruence|split; discriminate]. Qed.
  Lemma entry5_ok : forall l b s d, entry (m_of c osize) (n_str c) (n_lstr c) l b s d -> forall m path idx p nm dr, start <= p ->
    points path 0 m 1 l -> (idx = None \/ points idx 0 m 2 l) -> at_ (n_mem c) p b -> p + zlen b <= e ->
    exists nm', entry5 c u l m path idx p e nm dr = Ok (nm', match idx, d with Some _, Some n => Some n | _, _ => dr end, p + zlen b) /\
      match s with Some x => exists pl, nm' = Some pl /\ str_bytes c pl = Ok x | None => nm' = nm end.
  Proof.
    induction 1 as [|f l v b d0 s d H SP EN IH|f l n b d0 s H FD EN IH|t f l v b d0 s d N1 N2 H EN IH]; intros m path idx p nm dr P PA ID A E.
    - cbn. exists nm. split; [|reflexivity]. do 2 f_equal; [destruct idx; reflexivity|lia].
    - rewrite zlen_app in *. pose proof (zlen_nonneg _ d0). pose proof (zlen_nonneg _ b). assert (PA' : points path 0 (S m) 1 l) by (intros k t' g K; replace (S m + k)%nat with (m + S k)%nat by lia; exact (PA (S k) t' g K)).
      assert (ID' : idx = None \/ points idx 0 (S m) 2 l) by (destruct ID as [->|ID]; [left; reflexivity|right; intros k t' g K; replace (S m + k)%nat with (m + S k)%nat by lia; exact (ID (S k) t' g K)]).
      assert (HP : here path m = true) by (apply here_iff; pose proof (PA 0%nat 1 f eq_refl) as X; rewrite Nat.add_0_r in X; tauto).
      destruct (path_ok f v b p s H SP (at_app1 _ _ _ _ A) ltac:(lia)) as (pl & FS & SB). cbn [entry5]. fold (here path m). fold (here idx m). rewrite HP, FS. cbn [obind negb andb]. rewrite (fake_len f v b p H P (at_app1 _ _ _ _ A)) by lia.
      destruct (at_bound _ _ _ A) as [P0 _]. rewrite u64_small by lia. replace (e - p <? zlen b) with false by lia.
      destruct (IH (S m) path idx (p + zlen b) (Some pl) dr ltac:(lia) PA' ID' (at_app2 _ _ _ _ A) ltac:(lia)) as (nm' & -> & NM). cbn in NM. subst nm'. exists (Some pl). split; [do 2 f_equal; lia|]. exists pl. auto.
    - rewrite zlen_app in *. pose proof (zlen_nonneg _ d0). pose proof (zlen_nonneg _ b). assert (PA' : points path 0 (S m) 1 l) by (intros k t' g K; replace (S m + k)%nat with (m + S k)%nat by lia; exact (PA (S k) t' g K)).
      assert (ID' : idx = None \/ points idx 0 (S m) 2 l) by (destruct ID as [->|ID]; [left; reflexivity|right; intros k t' g K; replace (S m + k)%nat with (m + S k)%nat by lia; exact (ID (S k) t' g K)]).
      assert (HP : here path m = false) by (destruct (here path m) eqn:X; [|reflexivity]; apply here_iff in X; pose proof (PA 0%nat 2 f eq_refl) as Y; rewrite Nat.add_0_r in Y; apply Y in X; discriminate).
      cbn [entry5]. fold (here path m). fold (here idx m). rewrite HP. cbn [obind negb andb].
      assert (DD : exists dr', (if here idx m then match formudata u (Attr 58 f p []) true with Ok v => Ok (Some v) | Err _ => Ok None | UB => UB | Fuel => Fuel end else Ok dr) = Ok dr' /\ dr' = match idx with Some _ => Some n | None => dr end).
      { destruct ID as [-> | ID]; [exists dr; split; reflexivity|]. assert (HI : idx = Some m) by (pose proof (ID 0%nat 2 f eq_refl) as X; rewrite Nat.add_0_r in X; tauto). rewrite (proj2 (here_iff idx m) HI), HI. rewrite (dir_ok f n b p H FD (at_app1 _ _ _ _ A)) by lia. eauto. }
      destruct DD as (dr' & -> & DR). cbn [obind]. rewrite (fake_len f _ b p H P (at_app1 _ _ _ _ A)) by lia. destruct (at_bound _ _ _ A) as [P0 _]. rewrite u64_small by lia. replace (e - p <? zlen b) with false by lia.
      destruct (IH (S m) path idx (p + zlen b) nm dr' ltac:(lia) PA' ID' (at_app2 _ _ _ _ A) ltac:(lia)) as (nm' & -> & NM). exists nm'. split; [|exact NM]. do 2 f_equal; [|lia]. f_equal. rewrite DR. destruct idx; reflexivity.
    - rewrite zlen_app in *. pose proof (zlen_nonneg _ d0). pose proof (zlen_nonneg _ b). assert (PA' : points path 0 (S m) 1 l) by (intros k t' g K; replace (S m + k)%nat with (m + S k)%nat by lia; exact (PA (S k) t' g K)).
      assert (ID' : idx = None \/ points idx 0 (S m) 2 l) by (destruct ID as [->|ID]; [left; reflexivity|right; intros k t' g K; replace (S m + k)%nat with (m + S k)%nat by lia; exact (ID (S k) t' g K)]).
      assert (HP : here path m = false) by (destruct (here path m) eqn:X; [|reflexivity]; apply here_iff in X; pose proof (PA 0%nat t f eq_refl) as Y; rewrite Nat.add_0_r in Y; apply Y in X; congruence).
      assert (HI : here idx m = false) by (destruct ID as [->|ID]; [reflexivity|]; destruct (here idx m) eqn:X; [|reflexivity]; apply here_iff in X; pose proof (ID 0%nat t f eq_refl) as Y; rewrite Nat.add_0_r in Y; apply Y in X; congruence).
      cbn [entry5]. fold (here path m). fold (here idx m). rewrite HP, HI. cbn [obind negb andb]. rewrite (fake_len f v b p H P (at_app1 _ _ _ _ A)) by lia. destruct (at_bound _ _ _ A) as [P0 _]. rewrite u64_small by lia. replace (e - p <? zlen b) with false by lia.
      destruct (IH (S m) path idx (p + zlen b) nm dr ltac:(lia) PA' ID' (at_app2 _ _ _ _ A) ltac:(lia)) as (nm' & -> & NM). exists nm'. split; [|exact NM]. do 2 f_equal. lia.
  Qed.
  Lemma entry_none : forall l b s d, entry (m_of c osize) (n_str c) (n_lstr c) l b s d -> (s = None -> forall k f, nth_error l k <> Some (1, f)) /\ (d = None -> forall k f, nth_error l k <> Some (2, f)).
  Proof.
    induction 1 as [|f l v b d0 s d H SP EN IH|f l n b d0 s H FD EN IH|t f l v b d0 s d N1 N2 H EN IH].
    - split; intros _ [|k] f; discriminate.
    - split; [discriminate|]. intros D [|k] g K; [discriminate|]. exact (proj2 IH D k g K).
    - split; [|discriminate]. intros D [|k] g K; [discriminate|]. exact (proj1 IH D k g K).
    - split; intros D [|k] g K; cbn in K; try (injection K as -> _; congruence); [exact (proj1 IH D k g K)|exact (proj2 IH D k g K)].
  Qed.
  Lemma entry_once : forall l b s d, entry (m_of c osize) (n_str c) (n_lstr c) l b s d -> once 1 l /\ once 2 l.
  Proof.
    induction 1 as [|f l v b d0 s d H SP EN IH|f l n b d0 s H FD EN IH|t f l v b d0 s d N1 N2 H EN IH].
    - split; intros [|i] j f g I; discriminate.
    - destruct (entry_none _ _ _ _ EN) as [X1 X2]. specialize (X1 eq_refl). split; intros [|i] [|j] g g' I J; cbn in I, J; try discriminate; try reflexivity; try (destruct (X1 _ _ I)); try (destruct (X1 _ _ J)); f_equal. exact (proj2 IH i j g g' I J).
    - destruct (entry_none _ _ _ _ EN) as [X1 X2]. specialize (X2 eq_refl). split; intros [|i] [|j] g g' I J; cbn in I, J; try discriminate; try reflexivity; try (destruct (X2 _ _ I)); try (destruct (X2 _ _ J)); f_equal. exact (proj1 IH i j g g' I J).
    - split; intros [|i] [|j] g g' I J; cbn in I, J; try reflexivity; try (injection I as -> _; congruence); try (injection J as -> _; congruence); f_equal; [exact (proj1 IH i j g g' I J)|exact (proj2 IH i j g g' I J)].
  Qed.
  Lemma once_points : forall t l, once t l -> points (last_of t l) 0 0 t l.
  Proof. intros t l O k t' f K. exact (last_of_once t l O k t' f K). Qed.
  Lemma dirs5_ok : forall fs dirs bs, Forall2 (fun s b => exists d, entry (m_of c osize) (n_str c) (n_lstr c) fs b (Some s) d) dirs bs -> forall p, start <= p -> at_ (n_mem c) p (concat bs) -> p + zlen (concat bs) <= e ->
    dirs5 (length dirs) c u fs p e = Ok (map Some dirs, p + zlen (concat bs)).
  Proof.
    intros fs dirs bs F. induction F as [|s b dirs bs [d EN] F IH]; intros p P A E; [cbn; do 2 f_equal; lia|]. cbn [concat length dirs5 map] in *. rewrite zlen_app in *. pose proof (zlen_nonneg _ (concat bs)). pose proof (zlen_nonneg _ b).
    destruct (entry_once _ _ _ _ EN) as [O1 _]. destruct (entry5_ok _ _ _ _ EN 0 (last_of 1 fs) None p None None P (once_points _ _ O1) ltac:(left; reflexivity) (at_app1 _ _ _ _ A) ltac:(lia)) as (nm & -> & pl & -> & SB).
    cbn [obind]. rewrite SB. cbn [obind]. rewrite (IH (p + zlen b) ltac:(lia) (at_app2 _ _ _ _ A)) by lia. cbn [obind]. do 2 f_equal. lia.
  Qed.
  Definition info5 (dirs : list (option bytes)) (f : source) : fileinfo := File (full_name dirs f) 0 0.
  Lemma join_full : forall dirs f dn, znth dirs (dir f) = Some dn -> join dn (name f) = full_name dirs f.
  Proof. intros dirs f dn D. unfold join, full_name. rewrite D. destruct dn; reflexivity. Qed.
  Lemma files5_ok : forall fs dirs files bs, zlen dirs < two32 -> Forall2 (fun f b => entry (m_of c osize) (n_str c) (n_lstr c) fs b (Some (name f)) (Some (dir f))) files bs -> Forall (fun f => 0 <= dir f < zlen dirs) files -> forall p, start <= p -> at_ (n_mem c) p (concat bs) -> p + zlen (concat bs) <= e ->
    In 2 (map fst fs) \/ files = [] -> files5 (length files) c u fs dirs p e = Ok (map (info5 dirs) files, p + zlen (concat bs)).
  Proof.
    intros fs dirs files bs DL F. induction F as [|f b files bs EN F IH]; intros D p P A E I2; [cbn; do 2 f_equal; lia|]. destruct I2 as [I2|]; [|discriminate]. apply Forall_cons_iff in D as [D0 D]. cbn [concat length files5 map] in *. rewrite zlen_app in *. pose proof (zlen_nonneg _ (concat bs)). pose proof (zlen_nonneg _ b).
    destruct (entry_once _ _ _ _ EN) as [O1 O2]. destruct (entry5_ok _ _ _ _ EN 0 (last_of 1 fs) (last_of 2 fs) p None None P (once_points _ _ O1) ltac:(right; apply once_points; exact O2) (at_app1 _ _ _ _ A) ltac:(lia)) as (nm & -> & pl & -> & SB).
    pose proof (last_of_in 2 fs I2) as L2. destruct (last_of 2 fs) as [k2|]; [|discriminate]. cbn [obind]. replace (dir f =? two64 - 1) with false by lia. rewrite SB. cbn [obind]. destruct (Base.znth_in _ dirs (dir f) D0) as [dn DN]. rewrite DN. rewrite (IH D (p + zlen b) ltac:(lia) (at_app2 _ _ _ _ A)) by (try lia; left; exact I2).
    cbn [obind]. unfold info5 at 2. rewrite (join_full dirs f dn DN). do 2 f_equal. lia.
  Qed.
  Lemma value_len : forall f v b, holds (m_of c osize) f v b -> In f user_forms -> 1 <= zlen b.
  Proof.
    intros f v b H F. destruct H as [form w n W V|b L|form n b K U|n b S0| | |b L|b L|b L|form b x F' U|s F'|form v x b U FB FN H]; try (rewrite zlen_app, zlen_enc by lia; pose proof (zlen_nonneg _ b); lia).
    - pose proof (fixed_pos u form w ltac:(split; assumption) W). rewrite zlen_enc; lia.
    - lia.
    - pose proof (uleb_len _ _ U). lia.
    - pose proof (sleb_len _ _ S0). lia.
    - cbn in F. repeat (destruct F as [F|F]; [discriminate|]). destruct F.
    - cbn in F. repeat (destruct F as [F|F]; [discriminate|]). destruct F.
    - rewrite zlen_app. pose proof (zlen_nonneg _ b). pose proof (uleb_len _ _ U). lia.
    - rewrite zlen_app. pose proof (zlen_nonneg _ s). change (zlen [0]) with 1. lia.
    - cbn in F. repeat (destruct F as [F|F]; [discriminate|]). destruct F.
  Qed.
  Lemma columns_forms : forall l b, columns l b -> Forall (fun x => In (snd x) user_forms) l.
  Proof. induction 1; constructor; assumption. Qed.
  Lemma entry_len : forall l b s d, entry (m_of c osize) (n_str c) (n_lstr c) l b s d -> Forall (fun x => In (snd x) user_forms) l -> zlen l <= zlen b.
  Proof.
    induction 1 as [|f l v b d0 s d H SP EN IH|f l n b d0 s H FD EN IH|t f l v b d0 s d N1 N2 H EN IH]; intros F; [cbn; lia|..]; apply Forall_cons_iff in F as [F0 F]; specialize (IH F); pose proof (value_len _ _ _ H F0); rewrite zlen_cons, zlen_app; lia.
  Qed.
  Lemma entries_len : forall A (f : A -> bytes -> Prop) n l bs, (forall a b, f a b -> n <= zlen b) -> Forall2 f l bs -> n * zlen l <= zlen (concat bs).
  Proof.
    intros A f n l bs H F. induction F as [|a b l bs X F IH]; [cbn; lia|]. cbn [concat]. rewrite zlen_cons, zlen_app. specialize (H a b X). lia.
  Qed.
  Lemma count_ok : forall n k left, 0 < n -> n * k <= left -> left / n <? k = false.
  Proof. intros n k left N L. apply Z.ltb_ge. apply Z.div_le_lower_bound; lia. Qed.
  Lemma tables5_ok : forall dirs files tabs, tables_new (m_of c osize) (n_str c) (n_lstr c) dirs files tabs -> zlen dirs < two32 -> Forall (fun f => 0 <= dir f < zlen dirs) files -> at_ (n_mem c) start tabs -> start + zlen tabs <= e ->
    tables5 c osize start e = Ok (map Some dirs, match files with [] => [null_file] | _ => map (info5 (map Some dirs)) files end, start + zlen tabs).
  Proof.
    intros dirs files tabs T DL D A E. destruct T as [dc fc x y nx ny db fb CX CY ZX ZY UX UY DE FE I1 I2 FD FF]. destruct (at_bound _ _ _ A) as [P0 _].
    rewrite !zlen_app in E. change (zlen [zlen dc]) with 1 in E. change (zlen [zlen fc]) with 1 in E. pose proof (zlen_nonneg _ x). pose proof (zlen_nonneg _ y). pose proof (uleb_len _ _ UX) as LX. pose proof (uleb_len _ _ UY) as LY. pose proof (zlen_nonneg _ (concat db)). pose proof (zlen_nonneg _ (concat fb)). pose proof (zlen_nonneg _ dc) as C0. pose proof (zlen_nonneg _ fc) as C1.
    unfold tables5. fold u. rewrite u64_small by lia. replace (e - start <? 1) with false by lia. cbn [app] in A. rewrite (byte_at_at _ _ _ _ A). cbn [obind]. apply at_shift in A.
    replace (Z.to_nat (zlen dc)) with (length dc) by (unfold zlen; lia). rewrite (columns_ok c e EM M _ _ CX _ (at_app1 _ _ _ _ A)) by lia. cbn [obind]. apply at_app2 in A.
    assert (B1 : (0 <? zlen dc) && negb (is_some (last_of 1 dc)) = false).
    { destruct I1 as [I1 | ->]; [rewrite (last_of_in 1 dc I1); cbn; lia|reflexivity]. }
    rewrite B1. rewrite u64_small by lia. replace (e - (start + 1 + zlen x) <? 1) with false by lia. rewrite (uleb_at _ _ e _ _ UX (at_app1 _ _ _ _ A)) by lia. cbn [obind]. apply at_app2 in A.
    assert (B2 : (zlen dc =? 0) && negb (zlen dirs =? 0) = false) by (destruct dc; [rewrite (DE eq_refl); reflexivity|rewrite zlen_cons; pose proof (zlen_nonneg _ dc); lia]). rewrite B2.
    assert (K1 : zlen dc * zlen dirs <= zlen (concat db)) by (eapply entries_len; [|exact FD]; intros s b [d EN]; exact (entry_len _ _ _ _ EN (columns_forms _ _ CX))).
    rewrite u64_small by lia. assert (B3 : negb (zlen dc =? 0) && ((e - (start + 1 + zlen x + zlen nx)) / zlen dc <? zlen dirs) = false) by (destruct (zlen dc =? 0) eqn:Z0; [reflexivity|]; cbn [negb andb]; apply count_ok; lia).
    rewrite B3. replace (Z.to_nat (zlen dirs)) with (length dirs) by (unfold zlen; lia). rewrite (dirs5_ok dc dirs db FD (start + 1 + zlen x + zlen nx) ltac:(lia) (at_app1 _ _ _ _ A)) by lia. cbn [obind]. apply at_app2 in A. set (p := start + 1 + zlen x + zlen nx + zlen (concat db)) in *.
    rewrite u64_small by (unfold p; lia). replace (e - p <? 1) with false by (unfold p; lia). cbn [app] in A. rewrite (byte_at_at _ _ _ _ A). cbn [obind]. apply at_shift in A.
    replace (Z.to_nat (zlen fc)) with (length fc) by (unfold zlen; lia). rewrite (columns_ok c e EM M _ _ CY _ (at_app1 _ _ _ _ A)) by (unfold p; lia). cbn [obind]. apply at_app2 in A.
    assert (B4 : (0 <? zlen fc) && (negb (is_some (last_of 1 fc)) || negb (is_some (last_of 2 fc))) = false).
    { destruct I2 as [[I2 I3] | ->]; [rewrite (last_of_in 1 fc I2), (last_of_in 2 fc I3); cbn; lia|reflexivity]. }
    rewrite B4. rewrite (uleb_at _ _ e _ _ UY (at_app1 _ _ _ _ A)) by (unfold p; lia). cbn [obind]. apply at_app2 in A.
    assert (B5 : (zlen fc =? 0) && negb (zlen files =? 0) = false) by (destruct fc; [rewrite (FE eq_refl); reflexivity|rewrite zlen_cons; pose proof (zlen_nonneg _ fc); lia]). rewrite B5.
    assert (K2 : zlen fc * zlen files <= zlen (concat fb)) by (eapply entries_len; [|exact FF]; intros s b EN; exact (entry_len _ _ _ _ EN (columns_forms _ _ CY))).
    rewrite u64_small by (unfold p; lia). assert (B6 : negb (zlen fc =? 0) && ((e - (p + 1 + zlen y + zlen ny)) / zlen fc <? zlen files) = false) by (destruct (zlen fc =? 0) eqn:Z0; [reflexivity|]; cbn [negb andb]; apply count_ok; unfold p; lia).
    rewrite B6. replace (Z.to_nat (zlen files)) with (length files) by (unfold zlen; lia).
    assert (ZD : zlen (map (@Some bytes) dirs) = zlen dirs) by (unfold zlen; rewrite map_length; reflexivity).
    rewrite (files5_ok fc (map Some dirs) files fb); [| | |  | | | |].
    - cbn [obind]. rewrite !zlen_app. change (zlen [zlen dc]) with 1. change (zlen [zlen fc]) with 1. do 2 f_equal; [destruct files; reflexivity|unfold p; lia].
    - unfold bytes in *. rewrite ZD. exact DL.
    - exact FF.
    - eapply Forall_impl; [|exact D]. intros f X. unfold bytes in *. cbn beta. rewrite ZD. exact X.
    - unfold p. lia.
    - exact A.
    - unfold p. lia.
    - destruct I2 as [[_ I2] | ->]; [left; exact I2|right; exact (FE eq_refl)].
  Qed.
End Unit5.
