(* Proofs about PubModel: whole calls, calls that go on after an entry, and any bytes. *)
From Verif Require Import Base DwModel Slice ArModel Ar2Proof PubModel PubSpec PubProof.
Import PubSpec.
From Coq Require Import ZifyBool ZifyNat.

Lemma zlen_section : forall fle l tail, zlen (section fle l tail) = zlen (concat (map (set_bytes fle) l)) + zlen tail.
Proof. intros. unfold section. apply zlen_app. Qed.
Lemma psets_length : forall fle info l p, length (psets fle info p l) = length l.
Proof. induction l as [|s l IH]; intros p; cbn [psets length]; [reflexivity|]. rewrite IH. reflexivity. Qed.
Lemma get_exact : forall fle info l tail, bytes_ok info -> zlen (section fle l tail) < two64 / 2 -> Forall (set_ok fle info) l -> zlen tail <= 14 -> l <> [] ->
  get_offsets fle (section fle l tail) (Some info) = Ok (psets fle info 0 l).
Proof.
  intros fle info l tail IB DL OK T NE. unfold get_offsets. rewrite (offs_exact fle _ info IB DL l 0 _ [] tail OK T (at_all _)) by (unfold zlen; lia).
  cbn [obind]. rewrite app_nil_r. destruct l as [|s l]; [contradiction|]. cbn [psets]. 
  match goal with |- match rev ?l with _ => _ end = _ => destruct (rev l) eqn:E end.
  - apply (f_equal (@rev _)) in E. rewrite rev_involutive in E. discriminate.
  - rewrite <- E, rev_involutive. reflexivity.
Qed.
Lemma first_pos : forall s, 14 <= first_at s.
Proof. intros s. unfold first_at. destruct (width_cases s); destruct (n_wide s); lia. Qed.

Section call.
Context {A : Type} (cb : A -> glob -> A * Z) (fle : bool) (info : bytes).
Hypothesis (IB : bytes_ok info) (IL : zlen info + 23 < two64).
Let cb' (a : A) (n : named) := cb a (as_glob n).

Lemma call_exact : forall l tail a, zlen (section fle l tail) < two64 / 2 -> Forall (set_ok fle info) l -> zlen tail <= 14 -> l <> [] ->
  getpubnames cb fle (Some (section fle l tail)) (Some info) 0 a = outcome_of (visit cb' a (all_names fle info 0 l)).
Proof using IB IL.
  intros l tail a DL OK T NE. unfold getpubnames. rewrite (get_exact _ _ _ _ IB DL OK T NE).
  destruct l as [|s l]; [contradiction|]. set (d := section fle (s :: l) tail) in *.
  pose proof (at_all d) as AT. unfold d at 2 in AT. unfold section in AT. cbn [map concat] in AT. rewrite <- app_assoc in AT. fold (section fle l tail) in AT.
  pose proof (at_app2 _ _ _ _ AT) as ATR. apply at_app1 in AT. unfold set_bytes in AT. apply at_app2 in AT. rewrite zlen_head in AT. unfold body in AT. rewrite app_assoc in AT. apply at_app1 in AT.
  pose proof (first_pos s). destruct (at_bound _ _ _ AT) as [_ B]. pose proof (zlen_nonneg _ (concat (map (pair fle (width s)) (n_names s)) ++ enc fle (width s) 0)).
  replace (0 <? 0) with false by reflexivity. replace (zlen d <=? 0) with false by lia. replace (0 =? 0) with true by reflexivity.
  cbn [psets ps_start]. apply Forall_cons_iff in OK as OK'. destruct OK' as [(_ & _ & NT & _) _]. pose proof (zlen_nonneg _ (set_bytes fle s)) as ZS.
  pose proof (pub_exact cb fle d info IB IL l s (0 + first_at s) (n_names s) a ((1 + length (PS (0 + first_at s) (width s) (n_unit s) (unit_header info (n_unit s)) :: psets fle info (0 + zlen (set_bytes fle s)) l)) * (2 + length d))%nat (0 + zlen (set_bytes fle s)) tail OK NT AT ltac:(lia) ATR) as X.
  replace (0 + zlen (set_bytes fle s) - zlen (set_bytes fle s) + first_at s) with (0 + first_at s) in X by lia. apply X.
  cbn [length]. rewrite psets_length. unfold zlen. nia.
Qed.

(* the names behind an entry *)
Lemma names_split : forall w cu u names p pre x post, 0 <= w -> names_at w cu u p names = pre ++ x :: post -> 
  exists l1 l2, names = l1 ++ l2 /\ post = names_at w cu u (nm_end x) l2 /\ (length l2 < length names)%nat /\
    forall d z, at_ d p (concat (map (pair fle w) names) ++ z) -> at_ d (nm_end x) (concat (map (pair fle w) l2) ++ z) /\ p < nm_end x.
Proof using.
  clear. intros w cu u. induction names as [|[o n] names IH]; intros p pre x post W E; cbn [names_at] in E; [destruct pre; discriminate|].
  assert (STEP : forall d z, at_ d p (concat (map (pair fle w) ((o, n) :: names)) ++ z) -> at_ d (p + w + zlen n + 1) (concat (map (pair fle w) names) ++ z) /\ p < p + w + zlen n + 1).
  { intros d z AT. pose proof (zlen_nonneg _ n). split; [|lia]. cbn [map concat] in AT. rewrite <- app_assoc in AT. apply at_app2 in AT. unfold pair at 1 in AT. cbn [fst snd] in AT. rewrite !zlen_app, zlen_enc in AT by lia.
    change (zlen [0]) with 1 in AT. replace (p + w + zlen n + 1) with (p + (w + (zlen n + 1))) by lia. exact AT. }
  destruct pre as [|y pre]; cbn [app] in E.
  - injection E as <- <-. cbn [nm_end]. exists [(o, n)], names. cbn [app length]. split; [reflexivity|]. split; [reflexivity|]. split; [lia|]. exact STEP.
  - injection E as _ E. destruct (IH _ _ _ _ W E) as (l1 & l2 & -> & -> & L & H). exists ((o, n) :: l1), l2. cbn [app length] in *. split; [reflexivity|]. split; [reflexivity|]. split; [lia|]. intros d z H0. destruct (STEP _ _ H0) as [S1 S2]. apply H in S1. split; [apply S1|lia].
Qed.

Lemma resume_first : forall s t l tail a pre x post, let d := section fle (s :: t :: l) tail in zlen d < two64 / 2 -> Forall (set_ok fle info) (s :: t :: l) -> zlen tail <= 14 ->
  all_names fle info 0 (s :: t :: l) = pre ++ x :: post -> (length pre < length (n_names s))%nat ->
  getpubnames cb fle (Some d) (Some info) (nm_end x) a = outcome_of (visit cb' a post).
Proof using IB IL.
  intros s t l tail a pre x post d DL OK T E LP. 
  pose proof (at_all d) as AT. unfold d at 2 in AT. unfold section in AT. cbn [map concat] in AT. rewrite <- app_assoc in AT. pose proof (at_app2 _ _ _ _ AT) as ATR. apply at_app1 in AT.
  change (at_ d (0 + zlen (set_bytes fle s)) (section fle (t :: l) tail)) in ATR.
  unfold set_bytes in AT. apply at_app2 in AT. rewrite zlen_head in AT. unfold body in AT. rewrite app_assoc in AT. pose proof (at_app1 _ _ _ _ AT) as AT1.
  change (all_names fle info 0 (s :: t :: l)) with (rest_names info s (0 + first_at s) (n_names s) ++ all_names fle info (0 + zlen (set_bytes fle s)) (t :: l)) in E.
  assert (SP : exists p1, rest_names info s (0 + first_at s) (n_names s) = pre ++ x :: p1 /\ post = p1 ++ all_names fle info (0 + zlen (set_bytes fle s)) (t :: l)).
  { set (R := rest_names info s (0 + first_at s) (n_names s)) in *. assert (LR : length R = length (n_names s)) by apply names_len. rewrite <- LR in LP. clearbody R.
    set (N := all_names fle info (0 + zlen (set_bytes fle s)) (t :: l)) in *. clearbody N. clear -E LP. revert pre E LP. induction R as [|r R IH]; intros pre E LP; cbn [length] in LP; [lia|].
    destruct pre as [|y pre]; cbn [app] in *; injection E as -> E; [exists R; auto|]. destruct (IH pre E ltac:(cbn in LP; lia)) as (p1 & -> & ->). exists p1. auto. }
  destruct SP as (p1 & E1 & ->). unfold rest_names in E1. pose proof (width_cases s) as WC.
  assert (W0 : 0 <= width s) by lia. destruct (names_split _ _ _ _ _ _ _ _ W0 E1) as (l1 & l2 & N & -> & LL & ATX). destruct (ATX _ _ AT1) as [AT2 LT].
  destruct (at_bound _ _ _ AT2) as [_ B2]. rewrite zlen_app, zlen_enc in B2 by lia. pose proof (zlen_nonneg _ (concat (map (pair fle (width s)) l2))).
  pose proof (first_pos s). pose proof (first_pos t). 
  assert (BD : nm_end x <= zlen (set_bytes fle s)).
  { pose proof (at_all (set_bytes fle s)) as AS. unfold set_bytes at 2 in AS. apply at_app2 in AS. rewrite zlen_head in AS. unfold body in AS. rewrite app_assoc in AS. apply at_app1 in AS. destruct (ATX _ _ AS) as [AS2 _]. apply at_bound in AS2. rewrite zlen_app, zlen_enc in AS2 by lia. lia. }
  unfold getpubnames. rewrite (get_exact _ _ _ _ IB DL OK T : _ -> get_offsets fle d (Some info) = _) by discriminate.
  replace (nm_end x <? 0) with false by lia. fold d. replace (zlen d <=? nm_end x) with false by lia. replace (nm_end x =? 0) with false by lia.
  cbn [psets find_set ps_start]. replace (0 + first_at s <=? nm_end x) with true by lia. replace (nm_end x <? 0 + zlen (set_bytes fle s) + first_at t) with true by lia. cbn [obind].
  apply Forall_cons_iff in OK as OK'. destruct OK' as [(_ & _ & NT & _) _]. rewrite N in NT. apply Forall_app in NT. destruct NT as [_ NT]. 
  pose proof (pub_exact cb fle d info IB IL (t :: l) s (nm_end x) l2 a ((1 + length (psets fle info 0 (s :: t :: l))) * (2 + length d))%nat (0 + zlen (set_bytes fle s)) tail OK NT AT2 ltac:(pose proof (zlen_nonneg _ (set_bytes fle s)); lia) ATR) as X.
  replace (0 + zlen (set_bytes fle s) - zlen (set_bytes fle s) + first_at s) with (0 + first_at s) in X by lia. apply X.
  rewrite psets_length. cbn [length]. unfold zlen in *. cbn [length]. nia.
Qed.

Lemma resume_single : forall s tail off a, let d := section fle [s] tail in zlen d < two64 / 2 -> set_ok fle info s -> zlen tail <= 14 ->
  0 < off < zlen d -> getpubnames cb fle (Some d) (Some info) off a = UB.
Proof using IB.
  intros s tail off a d DL OK T O. unfold getpubnames. rewrite (get_exact _ _ _ _ IB DL : _ -> _ -> _ -> get_offsets fle d (Some info) = _) by (auto; discriminate). fold d.
  replace (off <? 0) with false by lia. replace (zlen d <=? off) with false by lia. replace (off =? 0) with false by lia. reflexivity.
Qed.
Lemma resume_later : forall s t l tail off a, let d := section fle (s :: t :: l) tail in zlen d < two64 / 2 -> Forall (set_ok fle info) (s :: t :: l) -> zlen tail <= 14 ->
  zlen (set_bytes fle s) + first_at t <= off < zlen d -> getpubnames cb fle (Some d) (Some info) off a = UB.
Proof using IB.
  intros s t l tail off a d DL OK T O. unfold getpubnames. rewrite (get_exact _ _ _ _ IB DL : _ -> _ -> _ -> get_offsets fle d (Some info) = _) by (auto; discriminate). fold d. pose proof (first_pos t). pose proof (first_pos s). pose proof (zlen_nonneg _ (set_bytes fle s)). pose proof (zlen_set fle s). pose proof (zlen_body fle s). destruct (width_cases s);
  (replace (off <? 0) with false by lia; replace (zlen d <=? off) with false by lia; replace (off =? 0) with false by lia;
  cbn [psets find_set ps_start]; replace (0 + first_at s <=? off) with true by lia; replace (off <? 0 + zlen (set_bytes fle s) + first_at t) with false by lia; reflexivity).
Qed.
End call.

(* ------------------------------------------------------------------ any bytes *)
Definition good (fle : bool) (d info : bytes) (s : pset) : Prop :=
  (ps_alen s = 4 \/ ps_alen s = 8) /\ 0 <= ps_start s < zlen d /\ 0 <= ps_cu s /\ ps_cu s + 4 <= zlen info /\ ps_hdr s = unit_header info (ps_cu s) /\
  exists p, rd fle d p (ps_alen s) = Ok (ps_cu s) /\ p + 2 * ps_alen s = ps_start s.
(* the unit offset of a set that lies 3 bytes before the end of .debug_info *)
Definition at_end (fle : bool) (d info : bytes) : Prop := exists p w, (w = 4 \/ w = 8) /\ rd fle d p w = Ok (zlen info - 3).

Lemma offs_any : forall fle d info, bytes_ok d -> bytes_ok info -> zlen d < two64 / 2 -> forall k p acc, 0 <= p -> (Z.to_nat (zlen d - p) < k)%nat -> Forall (good fle d info) acc ->
  match offs_loop k fle d (Some info) p acc with
  | Ok r => Forall (good fle d info) r
  | Err _ => True
  | UB => at_end fle d info
  | Fuel => False
  end.
Proof.
  intros fle d info DB IB DL. induction k as [|k IH]; intros p acc P K G; [lia|]. cbn [offs_loop].
  destruct (p + 14 <? zlen d) eqn:C; cbn [negb]; [|exact G]. rewrite rd_in by lia. cbn [obind]. set (len0 := fval fle (zsub d p 4)).
  assert (L0 : 0 <= len0 < 256 ^ 4) by (apply (rd_bound fle d p 4 len0 DB); [lia|]; rewrite rd_in by lia; reflexivity).
  assert (exists len, (if len0 =? LENGTH_64_BIT then rd fle d (p + 4) 8 else Ok len0) = Ok len /\ 0 <= len < two64) as (len & EL & LB).
  { destruct (len0 =? LENGTH_64_BIT); [|exists len0; split; [reflexivity|lia]]. exists (fval fle (zsub d (p + 4) 8)). rewrite rd_in by lia. split; [reflexivity|]. apply (rd_bound fle d (p + 4) 8 _ DB); [lia|]. apply rd_in; lia. }
  rewrite EL. cbn [obind]. destruct (negb (len0 =? LENGTH_64_BIT) && (LENGTH_MIN_ESCAPE <=? len0)) eqn:C2; [exact Logic.I|].
  set (lb := if len0 =? LENGTH_64_BIT then 8 else 4). set (q := if len0 =? LENGTH_64_BIT then p + 12 else p + 4).
  assert (LBC : lb = 4 /\ q = p + 4 \/ lb = 8 /\ q = p + 12) by (unfold lb, q; destruct (len0 =? LENGTH_64_BIT); auto). clearbody lb q.
  destruct ((zlen d <=? q + 2 + 2 * lb) || (zlen d - (q + 2 + 2 * lb) <? u64 (len - (2 + 2 * lb)))) eqn:C3; [exact G|].
  assert (LM : 2 + 2 * lb <= len). { destruct (Z_lt_le_dec len (2 + 2 * lb)); [|lia]. exfalso. unfold u64 in C3. replace ((len - (2 + 2 * lb)) mod two64) with (len - (2 + 2 * lb) + two64) in C3; [lia|]. symmetry. rewrite <- (Z_mod_plus_full _ 1). rewrite Z.mod_small; lia. }
  rewrite (rd_in fle d q 2) by lia. cbn [obind]. destruct (negb (_ =? 2)); [exact Logic.I|].
  unfold read_offset, read_address. destruct (in_section d (q + 2) lb) eqn:C4; [|exact Logic.I]. replace (if lb =? 4 then 4 else 8) with lb by (destruct LBC as [[-> _]|[-> _]]; reflexivity).
  rewrite (rd_in fle d (q + 2) lb) by lia. cbn [obind]. assert (RU : rd fle d (q + 2) lb = Ok (fval fle (zsub d (q + 2) lb))) by (apply rd_in; lia). set (cu := fval fle (zsub d (q + 2) lb)) in *.
  assert (0 <= cu) by (apply (rd_bound fle d (q + 2) lb cu DB) in RU; lia).
  unfold offset_in_section. destruct ((zlen info <? cu) || (zlen info <? 3) || (zlen info - 3 <? cu)) eqn:C5; [exact Logic.I|]. cbn [obind].
  destruct (cu + 4 <=? zlen info) eqn:C6.
  - rewrite rd_in by lia. cbn [obind]. apply IH; [lia|lia|]. constructor; [|exact G].
    pose proof (fval_ones fle (zsub info cu 4) (bytes_ok_part _ _ _ IB) ltac:(apply zsub_length; lia)) as FO.
    unfold good. cbn [ps_alen ps_start ps_cu ps_hdr]. repeat split; try lia; [rewrite FO; unfold unit_header; destruct (list_eq_dec _ _ _); reflexivity|]. exists (q + 2). split; [exact RU|lia].
  - unfold rd. replace (cu + 4 <=? zlen info) with false by lia. rewrite andb_false_r. cbn [obind]. exists (q + 2), lb. split; [lia|]. rewrite RU. f_equal. lia.
Qed.
Lemma get_any : forall fle d info, bytes_ok d -> bytes_ok info -> zlen d < two64 / 2 ->
  match get_offsets fle d (Some info) with Ok r => Forall (good fle d info) r /\ r <> [] | Err _ => True | UB => at_end fle d info | Fuel => False end.
Proof.
  intros fle d info DB IB DL. unfold get_offsets. pose proof (offs_any fle d info DB IB DL (S (length d)) 0 [] ltac:(lia) ltac:(unfold zlen; lia) (Forall_nil _)) as H.
  destruct (offs_loop _ _ _ _ _ _) as [r| | |]; cbn [obind]; auto. destruct r as [|s r]; [exact Logic.I|]. split; [apply Forall_rev, H|]. cbn [rev]. destruct (rev r); discriminate.
Qed.
Lemma get_none : forall fle d, zlen d < two64 / 2 -> bytes_ok d -> match get_offsets fle d None with Err _ => True | _ => False end.
Proof.
  intros fle d DL DB. unfold get_offsets. cbn [offs_loop].
  destruct (0 + 14 <? zlen d) eqn:C; cbn [negb]; [|exact Logic.I]. rewrite rd_in by lia. cbn [obind].
  destruct (fval fle (zsub d 0 4) =? LENGTH_64_BIT) eqn:W; cbn [negb andb]; [rewrite rd_in by lia; cbn [obind]|cbn [obind]; destruct (LENGTH_MIN_ESCAPE <=? _); [exact Logic.I|]];
  (destruct ((_ <=? _) || _) eqn:C3; [exact Logic.I|]; rewrite rd_in by lia; cbn [obind]; destruct (negb _); [exact Logic.I|]; unfold read_offset, read_address; destruct (in_section _ _ _) eqn:C4; [|exact Logic.I]; rewrite rd_in by (unfold in_section in C4; cbn; lia); exact Logic.I).
Qed.

(* a name reported: its offset and its name are in the section, behind one another *)
Definition occurs (fle : bool) (d info : bytes) (g : glob) : Prop := exists w u o p, (w = 4 \/ w = 8) /\ 0 <= u /\ u + 4 <= zlen info /\ 0 < o /\ 0 <= p /\
  rd fle d p w = Ok o /\ at_ d (p + w) (gl_name g ++ [0]) /\ cstr_ok (gl_name g) /\ gl_cu g = u64 (u + unit_header info u) /\ gl_die g = u64 (u + o) /\ exists p0, rd fle d p0 w = Ok u.

Section any.
Context {A : Type} (cb : A -> glob -> A * Z) (fle : bool) (d info : bytes).
Hypothesis (DB : bytes_ok d).
Variable I : A -> Prop.
Hypothesis (STEP : forall a g, I a -> occurs fle d info g -> I (fst (cb a g))).

Lemma loop_any : forall k sets p a, sets <> [] -> Forall (good fle d info) sets -> 0 <= p -> I a ->
  (Z.to_nat (2 + Z.max 0 (zlen d - p) + (zlen sets - 1) * (2 + zlen d)) <= k)%nat ->
  exists a' r, pub_loop cb fle d k sets p a = Ok (a', r) /\ I a' /\ (forall e, r = Stopped e -> p < e <= zlen d \/ (exists s, In s sets /\ ps_start s < e <= zlen d)).
Proof using DB STEP.
  induction k as [|k IH]; intros sets p a NE G P Ia K; destruct sets as [|s rest]; try contradiction; rewrite zlen_cons in K; pose proof (zlen_nonneg _ rest) as LR; pose proof (zlen_nonneg _ d) as LD; assert (0 <= zlen rest * (2 + zlen d)) by (apply Z.mul_nonneg_nonneg; lia); replace (1 + zlen rest - 1) with (zlen rest) in K by lia; [lia|].
  cbn [pub_loop]. apply Forall_cons_iff in G as G'. destruct G' as [(AL & ST & CU & CI & HD & p0 & RC & _) GR].
  destruct (zlen d <? p + ps_alen s) eqn:C1; [exists a, (Failed DWARF_E_INVALID_DWARF); repeat split; [exact Ia|discriminate]|].
  assert (RO : rd fle d p (ps_alen s) = Ok (fval fle (zsub d p (ps_alen s)))) by (apply rd_in; lia). rewrite RO. cbn [obind]. set (o := fval fle (zsub d p (ps_alen s))) in *.
  assert (0 <= o) by (apply (rd_bound fle d p (ps_alen s) o DB) in RO; lia).
  destruct (o =? 0) eqn:C2.
  - destruct rest as [|t rest]; [exists a, Done; repeat split; [exact Ia|discriminate]|]. apply Forall_cons_iff in GR as GR'. destruct GR' as [(_ & ST2 & _) _].
    destruct (IH (t :: rest) (ps_start t) a ltac:(discriminate) GR ltac:(lia) Ia) as (a' & r & E & Ia' & S).
    { rewrite !zlen_cons in *. replace (1 + zlen rest - 1) with (zlen rest) by lia. rewrite Z.mul_add_distr_r in K. set (zz := zlen rest * (2 + zlen d)) in *. clearbody zz. lia. }
    exists a', r. repeat split; [exact E|exact Ia'|]. intros e Q. right. destruct (S e Q) as [X|(s' & X1 & X2)]; [exists t; split; [right; left; reflexivity|exact X]|exists s'; split; [right; exact X1|exact X2]].
  - destruct (index_of 0 (skipn (Z.to_nat (p + ps_alen s)) d)) as [i|] eqn:IX; [|exists a, (Failed DWARF_E_INVALID_DWARF); repeat split; [exact Ia|discriminate]].
    apply index_of_some in IX. destruct IX as (n & b & E & LI & NZ).
    assert (AT : at_ d (p + ps_alen s) (n ++ [0])).
    { assert (D : d = firstn (Z.to_nat (p + ps_alen s)) d ++ (n ++ [0]) ++ b). { rewrite <- (firstn_skipn (Z.to_nat (p + ps_alen s)) d) at 1. rewrite E. rewrite <- app_assoc. reflexivity. }
      assert (LF : zlen (firstn (Z.to_nat (p + ps_alen s)) d) = p + ps_alen s) by (unfold zlen in *; rewrite firstn_length; lia).
      set (f := firstn (Z.to_nat (p + ps_alen s)) d) in *. rewrite <- LF. rewrite D. apply at_intro. }
    assert (ZS : zsub d (p + ps_alen s) (Z.of_nat i) = n). { apply at_app1 in AT. destruct AT as (_ & _ & Q). subst i. exact Q. }
    destruct (at_bound _ _ _ AT) as [_ BN]. rewrite zlen_app in BN. change (zlen [0]) with 1 in BN. assert (LN : zlen n = Z.of_nat i) by (unfold zlen; lia).
    rewrite ZS. set (g := GL (u64 (ps_cu s + ps_hdr s)) (u64 (o + ps_cu s)) n).
    assert (OC : occurs fle d info g).
    { exists (ps_alen s), (ps_cu s), o, p. unfold g. cbn [gl_name gl_cu gl_die]. rewrite HD. replace (o + ps_cu s) with (ps_cu s + o) by lia. repeat split; auto; try lia; [apply AT|apply AT|exists p0; exact RC]. }
    pose proof (STEP a g Ia OC) as Ib. destruct (cb a g) as [a1 code]. cbn [fst] in Ib.
    destruct (code =? 0); [|exists a1, (Stopped (p + ps_alen s + Z.of_nat i + 1)); repeat split; [exact Ib|]; intros e Q; injection Q as <-; left; lia].
    destruct (IH (s :: rest) (p + ps_alen s + Z.of_nat i + 1) a1 ltac:(discriminate) G ltac:(lia) Ib) as (a' & r & E' & Ia' & S).
    { rewrite zlen_cons. replace (1 + zlen rest - 1) with (zlen rest) by lia. lia. }
    exists a', r. repeat split; [exact E'|exact Ia'|]. intros e Q. destruct (S e Q) as [X|X]; [left; lia|right; exact X].
Qed.

Lemma call_any : bytes_ok info -> zlen d < two64 / 2 -> forall a, I a -> ~ at_end fle d info ->
  exists a' r, getpubnames cb fle (Some d) (Some info) 0 a = Ok (a', r) /\ I a' /\ (forall e, r = Stopped e -> 0 < e <= zlen d).
Proof using DB STEP.
  intros IB DL a Ia NA. unfold getpubnames. replace (0 <? 0) with false by reflexivity. destruct (zlen d <=? 0) eqn:C; [exists a, Done; repeat split; [exact Ia|discriminate|discriminate]|].
  pose proof (get_any fle d info DB IB DL) as G. destruct (get_offsets fle d (Some info)) as [sets| e| |] eqn:E; [|exists a, (Failed e); repeat split; [exact Ia|discriminate|discriminate]|contradiction|contradiction].
  destruct G as [G NE]. replace (0 =? 0) with true by reflexivity. destruct sets as [|s rest]; [contradiction|]. apply Forall_cons_iff in G as G'. destruct G' as [(_ & ST & _) _].
  destruct (loop_any ((1 + length (s :: rest)) * (2 + length d))%nat (s :: rest) (ps_start s) a NE G ltac:(lia) Ia) as (a' & r & E' & Ia' & S).
  { cbn [length]. unfold zlen in *. cbn [length]. nia. }
  exists a', r. split; [exact E'|]. split; [exact Ia'|]. intros e Q. rewrite Forall_forall in G. destruct (S e Q) as [X|(s' & X1 & X2)]; [lia|]. destruct (G s' X1) as (_ & Y & _). lia.
Qed.
End any.
