(* C38: segment lookup agrees with the reported segments.
   C47: module lookup by address.  C48: resuming the iteration over the modules.

   Specification: the page-rounded ranges of the reported segments, computed from the
   reports alone. *)
From Verif Require Import Base SegModel SegProof.

(* ------------------------------------------------------------------ *)
(* Specification *)
Record seg := Seg { g_start : Z; g_end : Z; g_ndx : Z }.
Definition floor_to (al x : Z) : Z := if al <=? 1 then x else x - x mod al.
Definition ceil_to (al x : Z) : Z := if al <=? 1 then x else x + (- x) mod al.
(* the address a report loads at *)
Definition base (r : report) : Z := (r_bias r + r_vaddr r) mod two64.
(* The smallest alignment seen so far is the page size; a negative index stands for the
   successor of the previous index. *)
Fixpoint segs_of (al next : Z) (rs : list report) : list seg :=
  match rs with
  | [] => []
  | r :: rs =>
    let al := if r_align r <=? 1 then al else if al <=? 1 then r_align r else Z.min al (r_align r) in
    let ndx := if r_ndx r <? 0 then next else r_ndx r in
    Seg (floor_to al (base r)) (ceil_to al (base r + r_memsz r)) ndx :: segs_of al (ndx + 1) rs
  end.
Definition inside (g : seg) (a : Z) : Prop := g_start g <= a < g_end g.
Definition apart (g h : seg) : Prop := g_end g <= g_start h \/ g_end h <= g_start g.
(* A segment with at least one byte whose alignment is a power of two *)
Definition report_ok (r : report) : Prop :=
  0 < r_memsz r /\ (r_align r <= 1 \/ exists k, 0 <= k < 64 /\ r_align r = 2 ^ k).
(* No report may be merged with its predecessor *)
Fixpoint separate (prev : Z) (rs : list report) : Prop :=
  match rs with [] => True | r :: rs => (r_ident r = 0 \/ r_ident r <> prev) /\ separate (r_ident r) rs end.

(* ------------------------------------------------------------------ *)
(* Proof of C38 *)
Definition al_ok (al : Z) : Prop := al <= 1 \/ exists k, 0 <= k < 64 /\ al = 2 ^ k.

Lemma start_floor : forall al s, al_ok al -> 0 <= s < two64 -> seg_start al s = floor_to al s /\ 0 <= floor_to al s <= s.
Proof.
  intros al s A S. unfold seg_start, floor_to. destruct (Z.leb_spec al 1) as [L|G].
  - replace (1 <? al) with false by lia. split; [reflexivity|lia].
  - replace (1 <? al) with true by lia. destruct A as [A|(k & K & ->)]; [lia|]. rewrite land_neg_pow2 by lia. split; [reflexivity|].
    pose proof (Z.pow_pos_nonneg 2 k ltac:(lia) ltac:(lia)). pose proof (Z.mod_pos_bound s (2 ^ k) ltac:(lia)). pose proof (Z.mod_le s (2 ^ k) ltac:(lia) ltac:(lia)). lia.
Qed.
Lemma end_ceil : forall al e, al_ok al -> 0 <= e -> ceil_to al e < two64 -> seg_end al e = ceil_to al e /\ e <= ceil_to al e.
Proof.
  intros al e A E C. unfold seg_end, ceil_to in *. destruct (Z.leb_spec al 1) as [L|G].
  - replace (1 <? al) with false by lia. split; [reflexivity|lia].
  - replace (1 <? al) with true by lia. destruct A as [A|(k & K & ->)]; [lia|].
    pose proof (Z.pow_pos_nonneg 2 k ltac:(lia) ltac:(lia)) as PP. pose proof (Z.mod_pos_bound (- e) (2 ^ k) ltac:(lia)) as MB.
    set (p := 2 ^ k) in *. assert (DIV : two64 = 2 ^ (64 - k) * p) by (unfold p; rewrite <- Z.pow_add_r by lia; replace (64 - k + k) with 64 by lia; reflexivity).
    set (c := e + (- e) mod p) in *.
    assert (CM : exists q, c = q * p). { exists (- ((- e) / p)). unfold c. pose proof (Z.div_mod (- e) p ltac:(lia)). nia. }
    destruct CM as [q CM]. assert (QB : q < 2 ^ (64 - k)) by nia.
    assert (c + p <= two64) by nia.
    split; [|lia]. unfold u64 at 1. rewrite Z.mod_small by lia. unfold p at 2. rewrite land_neg_pow2 by (fold p; lia). fold p.
    replace (e + p - 1) with ((e + p - 1 - c) + q * p) by lia. rewrite Z.mod_add by lia. rewrite Z.mod_small by lia. lia.
Qed.
Lemma al_step : forall al r, al_ok al -> report_ok r ->
  (if (1 <? r_align r) && ((al <=? 1) || (r_align r <? al)) then r_align r else al) = (if r_align r <=? 1 then al else if al <=? 1 then r_align r else Z.min al (r_align r)) /\
  al_ok (if r_align r <=? 1 then al else if al <=? 1 then r_align r else Z.min al (r_align r)).
Proof.
  intros al r A (_ & R). destruct (Z.leb_spec (r_align r) 1).
  - replace (1 <? r_align r) with false by lia. split; [reflexivity|exact A].
  - replace (1 <? r_align r) with true by lia. cbn [andb]. destruct (Z.leb_spec al 1); cbn [orb]; [split; [reflexivity|exact R]|].
    destruct (Z.ltb_spec (r_align r) al); [split; [lia|replace (Z.min al (r_align r)) with (r_align r) by lia; exact R]|split; [lia|replace (Z.min al (r_align r)) with al by lia; exact A]].
Qed.

Definition bot : entry := E (-1) (-1) None.
Definition rel (R : list seg) (x y : entry) : Prop := e_addr x <= e_addr y /\ (e_addr x = e_addr y -> exists g, In g R /\ g_end g = e_addr x).
Record inv (t : list entry) (R : list seg) : Prop := Inv {
  i_chain : chain (rel R) bot t;
  i_bound : forall x, In x t -> exists g, In g R /\ (e_addr x = g_start g \/ e_addr x = g_end g);
  i_cover : forall g a, In g R -> inside g a -> find t a (-1) = g_ndx g;
  i_gap : forall a, (forall g, In g R -> ~ inside g a) -> find t a (-1) = -1 }.

Lemma rel_le : forall R t p, chain (rel R) p t -> chain le_addr p t.
Proof. intros R t p. apply chain_impl. intros x y [H _]. exact H. Qed.
Lemma rel_mono : forall R R' x y, (forall g, In g R -> In g R') -> rel R x y -> rel R' x y.
Proof. intros R R' x y M [A B]. split; [exact A|]. intros E0. destruct (B E0) as (g & G1 & G2). exists g. split; [apply M, G1|exact G2]. Qed.

Lemma find_last : forall l x a acc, (forall y, In y l -> e_addr y <= a) -> e_addr x <= a -> find (l ++ [x]) a acc = e_ndx x.
Proof. intros l x a acc L X. rewrite find_app_le by exact L. cbn [find]. replace (e_addr x <=? a) with true by lia. reflexivity. Qed.

Lemma inv_add : forall d R g pre post, inv (d_tbl d) R -> cap_ok d -> g_start g < g_end g -> 0 <= g_start g ->
  (forall h, In h R -> g_start h < g_end h /\ apart h g) -> d_tbl d = pre ++ post -> (forall x, In x pre -> e_addr x <= g_start g) -> (forall x, In x post -> g_start g < e_addr x) ->
  exists d', insert d (zlen pre) (g_start g) (g_end g) (g_ndx g) = Ok d' /\ d' = set_tbl d (d_tbl d') (d_alloc d') /\ inv (d_tbl d') (R ++ [g]) /\ cap_ok d'.
Proof.
  intros d R g pre post [IC IB IV IG] CAP NE0 S0 AP T PRE POST. set (s := g_start g) in *. set (e := g_end g) in *. set (n := g_ndx g) in *.
  (* entries behind the insertion point start at e or later *)
  assert (POSTE : forall x, In x post -> e <= e_addr x).
  { intros x I. destruct (IB x) as (h & H1 & H2). { rewrite T. apply in_app_iff. right. exact I. }
    destruct (AP h H1) as [NH AH]. pose proof (POST x I). unfold apart in AH. fold s e in AH. destruct H2 as [H2|H2]; rewrite H2 in *; lia. }
  assert (UNC : forall a, s <= a < e -> forall h, In h R -> ~ inside h a).
  { intros a A h H1. destruct (AP h H1) as [NH AH]. unfold apart in AH. fold s e in AH. unfold inside. lia. }
  assert (FP : forall a, s <= a -> find pre a (-1) = -1).
  { intros a A. pose proof (IG s (UNC s ltac:(lia))) as F. rewrite T in F. rewrite find_app_gt in F by exact POST.
    rewrite (find_le pre a s); [exact F| |exact PRE]. intros x I. pose proof (PRE x I). lia. }
  assert (FO : forall a, s <= a -> find post a (-1) = find (d_tbl d) a (-1)).
  { intros a A. rewrite T, find_app_le by (intros x I; pose proof (PRE x I); lia). rewrite FP by exact A. reflexivity. }
  (* the new table: what it has to satisfy *)
  assert (FIN : forall mid pre', (forall a, a < s -> find (pre' ++ mid ++ post) a (-1) = find (d_tbl d) a (-1)) ->
     (forall a, s <= a < e -> find (pre' ++ mid ++ post) a (-1) = n) ->
     (forall a, e <= a -> find (pre' ++ mid ++ post) a (-1) = find (d_tbl d) a (-1)) ->
     chain (rel (R ++ [g])) bot (pre' ++ mid ++ post) ->
     (forall x, In x (pre' ++ mid ++ post) -> e_addr x = s \/ e_addr x = e \/ exists y, In y (d_tbl d) /\ e_addr y = e_addr x) ->
     inv (pre' ++ mid ++ post) (R ++ [g])).
  { intros mid pre' F1 F2 F3 C B. constructor.
    - exact C.
    - intros x I. destruct (B x I) as [Hx|[Hx|(y & Y1 & Y2)]].
      + exists g. split; [apply in_app_iff; right; left; reflexivity|left; exact Hx].
      + exists g. split; [apply in_app_iff; right; left; reflexivity|right; exact Hx].
      + destruct (IB y Y1) as (h & H1 & H2). exists h. split; [apply in_app_iff; left; exact H1|rewrite <- Y2; exact H2].
    - intros h a I IN. apply in_app_iff in I. destruct I as [I|[<-|[]]].
      + assert (~ (s <= a < e)) by (intros A; exact (UNC a A h I IN)). destruct (Z.lt_ge_cases a s); [rewrite F1 by lia|rewrite F3 by lia]; apply IV; assumption.
      + apply F2. exact IN.
    - intros a N. assert (~ inside g a) by (apply N, in_app_iff; right; left; reflexivity). unfold inside in H. fold s e in H.
      assert (NR : forall h, In h R -> ~ inside h a) by (intros h I; apply N, in_app_iff; left; exact I).
      destruct (Z.lt_ge_cases a s); [rewrite F1 by lia|rewrite F3 by lia]; apply IG, NR. }
  assert (MONO : forall x y, rel R x y -> rel (R ++ [g]) x y) by (intros x y; apply rel_mono; intros h I; apply in_app_iff; left; exact I).
  rewrite T in IC. apply chain_app in IC as [IC1 IC2].
  assert (CP : forall p, (forall x, In x post -> e_addr p <= e_addr x /\ (e_addr p = e_addr x -> e_addr p = e)) -> chain (rel (R ++ [g])) p post).
  { intros p P. destruct post as [|y post']; [exact I|]. destruct IC2 as [_ IC2]. split; [|eapply chain_impl; [exact MONO|exact IC2]].
    destruct (P y (or_introl eq_refl)) as [P1 P2]. split; [exact P1|]. intros Q. exists g. split; [apply in_app_iff; right; left; reflexivity|]. rewrite (P2 Q). reflexivity. }
  (* is an end marker needed? *)
  assert (TE : tail_end post e = [E e (-1) None] \/ (tail_end post e = [] /\ exists y, In y post /\ e_addr y = e /\ exists h, In h R /\ g_end h = e)).
  { unfold tail_end. destruct post as [|y [|y2 post']]; [left; reflexivity|left; reflexivity|]. destruct (Z.eqb_spec (e_addr y2) e) as [Q|Q]; [right|left; reflexivity].
    split; [reflexivity|]. exists y. split; [left; reflexivity|]. destruct IC2 as [_ [[L1 L2] _]]. pose proof (POSTE y (or_introl eq_refl)).
    assert (Q2 : e_addr y = e) by lia. split; [exact Q2|]. destruct (L2 ltac:(lia)) as (h & H1 & H2). exists h. split; [exact H1|lia]. }
  assert (HEAD : forall a acc, e <= a -> (tail_end post e = [E e (-1) None] -> True) -> find post a acc = find post a (-1) \/ (forall y, In y post -> a < e_addr y)).
  { intros a acc A _. destruct post as [|y post']. 2:{ cbn [find]. destruct (Z.leb_spec (e_addr y) a) as [L|G]; [left; reflexivity|right].
      intros z I. destruct IC2 as [_ IC2]. apply rel_le in IC2. destruct I as [<-|I]; [exact G|]. pose proof (chain_head _ _ _ IC2 I). lia. }
    right. intros y []. }
  assert (DEC : pre = [] \/ (exists l x, pre = l ++ [x] /\ e_addr x <> s) \/ (exists l x, pre = l ++ [x] /\ e_addr x = s)).
  { destruct pre as [|z pre']; [left; reflexivity|right].
    destruct (exists_last (l := z :: pre') ltac:(discriminate)) as (l & x & PX); destruct (Z.eq_dec (e_addr x) s) as [Q|Q]; [right|left]; exists l, x; split; assumption. }
  assert (NEW : pre = [] \/ (exists l x, pre = l ++ [x] /\ e_addr x <> s) -> exists d', insert d (zlen pre) s e n = Ok d' /\ d' = set_tbl d (d_tbl d') (d_alloc d') /\ inv (d_tbl d') (R ++ [g]) /\ cap_ok d').
  { intros NS. destruct (insert_new d pre post s e n T CAP NS) as (d' & E1 & E2 & CAP'). exists d'. split; [exact E1|].
    assert (TB : d_tbl d' = pre ++ ([E s n None] ++ tail_end post e) ++ post) by (rewrite E2, <- app_assoc; reflexivity).
    split; [rewrite TB, <- app_assoc; exact E2|]. split; [|exact CAP']. rewrite TB.
    assert (LASTP : e_addr (last pre bot) < s).
    { destruct NS as [->|(l & x & -> & Q)]; [cbn; lia|]. rewrite last_snoc. pose proof (PRE x ltac:(apply in_app_iff; right; left; reflexivity)). lia. }
    apply FIN.
    - intros a A. rewrite T. rewrite !find_app_gt; [reflexivity| |].
      + intros x I. pose proof (POST x I). lia.
      + intros x I. apply in_app_iff in I as [I|I]; [|pose proof (POST x I); lia]. apply in_app_iff in I as [[<-|[]]|I]; [cbn; lia|].
        destruct TE as [TE|[TE _]]; rewrite TE in I; [destruct I as [<-|[]]; cbn; lia|contradiction].
    - intros a A. rewrite find_app_le by (intros x I; pose proof (PRE x I); lia). cbn [app find e_addr e_ndx]. replace (s <=? a) with true by lia.
      destruct TE as [-> |[-> _]]; cbn [app find e_addr].
      + replace (e <=? a) with false by lia. reflexivity.
      + rewrite <- (app_nil_l post), find_app_gt; [reflexivity|]. intros x I. pose proof (POSTE x I). lia.
    - intros a A. rewrite find_app_le by (intros x I; pose proof (PRE x I); lia). cbn [app find e_addr e_ndx]. replace (s <=? a) with true by lia. rewrite <- (FO a) by lia.
      destruct TE as [-> |[-> (y & Y1 & Y2 & _)]]; cbn [app find e_addr e_ndx].
      + replace (e <=? a) with true by lia. reflexivity.
      + destruct (HEAD a n A (fun _ => I)) as [Q|Q]; [exact Q|]. pose proof (Q y Y1). lia.
    - apply chain_app. split; [eapply chain_impl; [exact MONO|exact IC1]|]. cbn [app chain]. split; [split; [cbn; lia|cbn; lia]|].
      destruct TE as [-> |[-> _]]; cbn [app chain].
      + split; [split; cbn; lia|]. apply CP. intros x I. cbn [e_addr]. pose proof (POSTE x I). split; [lia|reflexivity].
      + apply CP. intros x I. cbn [e_addr]. pose proof (POSTE x I). split; lia.
    - intros x I. apply in_app_iff in I as [I|I]; [right; right; exists x; split; [rewrite T; apply in_app_iff; left; exact I|reflexivity]|].
      apply in_app_iff in I as [I|I]; [|right; right; exists x; split; [rewrite T; apply in_app_iff; right; exact I|reflexivity]].
      apply in_app_iff in I as [[<-|[]]|I]; [left; reflexivity|right; left]. destruct TE as [TE|[TE _]]; rewrite TE in I; [destruct I as [<-|[]]; reflexivity|contradiction]. }
  destruct DEC as [D|[D|D]]; [apply NEW; left; exact D|apply NEW; right; exact D|].
  destruct D as (l & x & PX & XS).
  destruct TE as [TE|[_ (y & _ & _ & h & H1 & H2)]].
  2:{ exfalso. destruct (AP h H1) as [NH AH]. unfold apart in AH. fold s e in AH. lia. }
  subst pre. destruct (insert_old d l x post s e n T CAP XS) as (d' & E1 & E2 & CAP'); [rewrite TE; discriminate|]. exists d'. split; [exact E1|]. rewrite TE in E2.
  assert (TB : d_tbl d' = (l ++ [set_ndx x n]) ++ [E e (-1) None] ++ post) by (rewrite E2; reflexivity).
  split; [rewrite TB; exact E2|]. split; [|exact CAP']. rewrite TB.
  assert (LP : forall y, In y l -> e_addr y <= s) by (intros y I; apply PRE, in_app_iff; left; exact I).
  apply FIN.
  - intros a A. rewrite T. rewrite (find_app_gt (l ++ [set_ndx x n])) by (intros z I; apply in_app_iff in I as [[<-|[]]|I]; [cbn; lia|pose proof (POST z I); lia]).
    rewrite (find_app_gt (l ++ [x])) by (intros z I; pose proof (POST z I); lia). rewrite !find_app_gt; [reflexivity| |]; intros z [<-|[]]; cbn [set_ndx e_addr]; lia.
  - intros a A. rewrite find_app_gt by (intros z I; apply in_app_iff in I as [[<-|[]]|I]; [cbn; lia|pose proof (POSTE z I); lia]).
    rewrite find_last; [reflexivity| |cbn [set_ndx e_addr]; lia]. intros y I. pose proof (LP y I). lia.
  - intros a A. rewrite find_app_le.
    2:{ intros z I. apply in_app_iff in I as [I|[<-|[]]]; [pose proof (LP z I); lia|cbn [set_ndx e_addr]; lia]. }
    cbn [app find e_addr e_ndx]. replace (e <=? a) with true by lia. apply FO. lia.
  - apply chain_app in IC1 as [IC1 [IC3 _]]. rewrite <- app_assoc. apply chain_app. split; [eapply chain_impl; [exact MONO|exact IC1]|]. cbn [app chain].
    split; [apply MONO in IC3; exact IC3|]. split; [split; cbn [set_ndx e_addr]; lia|]. apply CP. intros z I. cbn [e_addr]. pose proof (POSTE z I). split; [lia|reflexivity].
  - intros z I. apply in_app_iff in I as [I|I].
    + apply in_app_iff in I as [I|[<-|[]]]; [|left; exact XS]. right. right. exists z. split; [rewrite T; apply in_app_iff; left; apply in_app_iff; left; exact I|reflexivity].
    + apply in_app_iff in I as [[<-|[]]|I]; [right; left; reflexivity|]. right. right. exists z. split; [rewrite T; apply in_app_iff; right; exact I|reflexivity].
Qed.

Lemma report_all_inv : forall rs d R, inv (d_tbl d) R -> cap_ok d -> al_ok (d_align d) -> (forall g, In g R -> g_start g < g_end g) ->
  Forall report_ok rs -> separate (t_ident d) rs ->
  Forall (fun g => g_end g < two64) (segs_of (d_align d) (t_ndx d) rs) -> ForallOrdPairs apart (R ++ segs_of (d_align d) (t_ndx d) rs) ->
  exists d', report_all d rs = Ok d' /\ inv (d_tbl d') (R ++ segs_of (d_align d) (t_ndx d) rs).
Proof.
  induction rs as [|r rs IH]; intros d R IV CAP AL NE F SEP EN AP; cbn [report_all segs_of].
  { exists d. split; [reflexivity|]. rewrite app_nil_r. exact IV. }
  inversion F as [|r' rs' OK F']; subst. destruct SEP as [SEP1 SEP2]. cbn [segs_of] in EN, AP. cbv zeta in EN, AP.
  destruct (al_step (d_align d) r AL OK) as [ALE ALO].
  set (al := if r_align r <=? 1 then d_align d else if d_align d <=? 1 then r_align r else Z.min (d_align d) (r_align r)) in *.
  set (ndx := if r_ndx r <? 0 then t_ndx d else r_ndx r) in *. set (g := Seg (floor_to al (base r)) (ceil_to al (base r + r_memsz r)) ndx) in *.
  apply Forall_inv_tail in EN as EN'. apply Forall_inv in EN. cbn [g g_end] in EN.
  assert (BB : 0 <= base r < two64) by (apply Z.mod_pos_bound; reflexivity).
  destruct OK as [MS RA]. destruct (start_floor al (base r) ALO BB) as [SF SB]. destruct (end_ceil al (base r + r_memsz r) ALO ltac:(lia) EN) as [EC EB].
  assert (UE : u64 (r_bias r + r_vaddr r + r_memsz r) = base r + r_memsz r).
  { unfold u64, base. rewrite <- Z.add_mod_idemp_l by discriminate. apply Z.mod_small. fold (base r). lia. }
  unfold report_segment. fold ndx. rewrite ALE, UE, EC. change (u64 (r_bias r + r_vaddr r)) with (base r). rewrite SF. cbv zeta.
  replace (negb (ndx =? t_ndx d) || (r_ident r =? 0) || negb (r_ident r =? t_ident d) || negb (floor_to al (base r) =? t_vaddr d) || negb (r_off r =? t_off d)) with true by lia.
  set (d1 := Dwfl al (d_tbl d) (d_alloc d) false (d_segs d) (t_ident d) (t_vaddr d) (t_off d) (t_ndx d)).
  destruct (place_spec (d_tbl d) bot (floor_to al (base r)) (rel_le _ _ _ (i_chain _ _ IV))) as (pre & post & T & PL & P1 & P2). rewrite PL.
  assert (APH : forall h, In h R -> g_start h < g_end h /\ apart h g).
  { intros h H. split; [apply NE, H|]. clear - AP H. induction R as [|x R IHR]; [contradiction|]. cbn [app] in AP. inversion AP as [|x' l FA AP']; subst. destruct H as [->|H]; [|apply IHR; assumption].
    rewrite Forall_forall in FA. apply FA, in_app_iff. right. left. reflexivity. }
  destruct (inv_add d1 R g pre post) as (d2 & I1 & I2 & I3 & I4); try assumption.
  { cbn [g g_start g_end]. lia. } { cbn [g g_start]. lia. }
  change (floor_to al (base r)) with (g_start g). change (ceil_to al (base r + r_memsz r)) with (g_end g). change ndx with (g_ndx g) at 1. rewrite I1. cbn [obind].
  set (d3 := Dwfl (d_align d2) _ _ _ _ _ _ _ _).
  assert (AL3 : d_align d3 = al) by (unfold d3; rewrite I2; reflexivity).
  assert (AP3 : ForallOrdPairs apart ((R ++ [g]) ++ segs_of al (ndx + 1) rs)) by (rewrite <- app_assoc; exact AP).
  destruct (IH d3 (R ++ [g])) as (d' & E1 & E2).
  - exact I3.
  - exact I4.
  - rewrite AL3. exact ALO.
  - intros h H. apply in_app_iff in H as [H|[<-|[]]]; [apply NE, H|]. cbn [g g_start g_end]. lia.
  - exact F'.
  - exact SEP2.
  - rewrite AL3. exact EN'.
  - rewrite AL3. exact AP3.
  - exists d'. split; [exact E1|]. rewrite AL3, <- app_assoc in E2. exact E2.
Qed.

(* C38: after any sequence of reports of non-empty, pairwise disjoint segments none of which
   is merged with its predecessor, lookup finds the segment. *)
Theorem C38_addrsegment_partial : forall rs, Forall report_ok rs -> separate 0 rs ->
  Forall (fun g => g_end g < two64) (segs_of 0 0 rs) -> ForallOrdPairs apart (segs_of 0 0 rs) ->
  exists d, report_all dwfl_begin rs = Ok d /\
    forall a, exists n, addrsegment d a = Ok n /\
      (forall g, In g (segs_of 0 0 rs) -> inside g a -> n = g_ndx g) /\
      ((forall g, In g (segs_of 0 0 rs) -> ~ inside g a) -> n = -1).
Proof.
  intros rs F SEP EN AP. destruct (report_all_inv rs dwfl_begin []) as (d & E1 & [I1 I2 I3 I4]); try assumption.
  - constructor; [exact I|intros x []|intros g a []|reflexivity].
  - left. split; reflexivity.
  - left. cbn. lia.
  - intros g [].
  - exists d. split; [exact E1|]. intros a. exists (find (d_tbl d) a (-1)). split; [eapply addrsegment_find, rel_le, I1|]. split; [|apply I4].
    intros g G IN. apply (I3 g a G IN).
Qed.
Print Assumptions C38_addrsegment_partial.

(* The table stays sorted, whatever is looked up later. *)
Theorem C38_sorted_partial : forall rs, Forall report_ok rs -> separate 0 rs ->
  Forall (fun g => g_end g < two64) (segs_of 0 0 rs) -> ForallOrdPairs apart (segs_of 0 0 rs) ->
  exists d, report_all dwfl_begin rs = Ok d /\
    forall i j x y, i <= j -> znth (d_tbl d) i = Some x -> znth (d_tbl d) j = Some y -> e_addr x <= e_addr y.
Proof.
  intros rs F SEP EN AP. destruct (report_all_inv rs dwfl_begin []) as (d & E1 & [I1 I2 I3 I4]); try assumption.
  - constructor; [exact I|intros x []|intros g a []|reflexivity].
  - left. split; reflexivity.
  - left. cbn. lia.
  - intros g [].
  - exists d. split; [exact E1|]. intros i j x y IJ X Y. eapply chain_le; [eapply rel_le, I1|exact X|exact Y|exact IJ].
Qed.
Print Assumptions C38_sorted_partial.

(* Segments 7 (two pages), 8, and one more that gets index 9; reported out of order. *)
Definition ex_rs : list report :=
  [Rep 7 4096 8000 4096 0 0 0; Rep 8 100 10 4096 0 40960 5; Rep (-1) 16384 1 65536 0 0 6; Rep 3 12288 4096 4096 0 0 0].
Example C38_nonvacuous :
  Forall report_ok ex_rs /\ separate 0 ex_rs /\
  segs_of 0 0 ex_rs = [Seg 4096 12288 7; Seg 40960 45056 8; Seg 16384 20480 9; Seg 12288 16384 3] /\
  ForallOrdPairs apart (segs_of 0 0 ex_rs) /\
  match report_all dwfl_begin ex_rs with
  | Ok d => map (addrsegment d) [4095; 4096; 12287; 12288; 16384; 20479; 20480; 41000; 45056] =
            [Ok (-1); Ok 7; Ok 7; Ok 3; Ok 9; Ok 9; Ok (-1); Ok 8; Ok (-1)]
  | _ => False
  end.
Proof.
  assert (P : forall r, r_align r = 4096 \/ r_align r = 65536 -> 0 < r_memsz r -> report_ok r).
  { intros r [A|A] M; (split; [exact M|right]); [exists 12|exists 16]; (split; [lia|exact A]). }
  split; [repeat (apply Forall_cons; [apply P; cbn; lia|]); apply Forall_nil|]. split; [cbn; lia|]. split; [vm_compute; reflexivity|].
  split; [|vm_compute; reflexivity].
  replace (segs_of 0 0 ex_rs) with [Seg 4096 12288 7; Seg 40960 45056 8; Seg 16384 20480 9; Seg 12288 16384 3] by (vm_compute; reflexivity).
  repeat (apply FOP_cons; [repeat (apply Forall_cons; [unfold apart; cbn; lia|]); apply Forall_nil|]). apply FOP_nil.
Qed.

(* A segment that continues its predecessor (next index, same non-null identity, contiguous
   in memory and file) is merged with it by not being entered at all: its addresses are in
   no segment, although the documentation promises the predecessor's index. *)
Theorem C38_coalesce_refuted : exists rs d g,
  Forall report_ok rs /\ ForallOrdPairs apart (segs_of 0 0 rs) /\ report_all dwfl_begin rs = Ok d /\
  In g (segs_of 0 0 rs) /\ forall a, inside g a -> addrsegment d a = Ok (-1).
Proof.
  exists [Rep 0 4096 4096 4096 0 0 9; Rep 1 8192 4096 4096 4096 0 9]. destruct (report_all dwfl_begin [Rep 0 4096 4096 4096 0 0 9; Rep 1 8192 4096 4096 4096 0 9]) as [d| | |] eqn:E0; vm_compute in E0; try discriminate.
  exists d, (Seg 8192 12288 1). injection E0 as <-. 
  split; [repeat (apply Forall_cons; [split; [cbn; lia|right; exists 12; split; [lia|reflexivity]]|]); apply Forall_nil|].
  split; [vm_compute; repeat (apply FOP_cons; [repeat (apply Forall_cons; [left; vm_compute; discriminate|]); apply Forall_nil|]); apply FOP_nil|].
  split; [reflexivity|]. split; [right; left; vm_compute; reflexivity|]. intros a [A1 A2]. cbn [g_start g_end] in A1, A2.
  rewrite (addrsegment_find _ bot); [|cbn; unfold le_addr; cbn; lia]. cbn [d_tbl find e_addr e_ndx]. replace (4096 <=? a) with true by lia. replace (8192 <=? a) with true by lia. reflexivity.
Qed.
Print Assumptions C38_coalesce_refuted.

(* An empty segment leaves two markers at one address; a segment reported later between a
   known address and that one is lost. *)
Theorem C38_empty_refuted : exists rs d g,
  ForallOrdPairs apart (segs_of 0 0 rs) /\ separate 0 rs /\ report_all dwfl_begin rs = Ok d /\
  In g (segs_of 0 0 rs) /\ g_start g < g_end g /\ forall a, inside g a -> addrsegment d a = Ok (-1).
Proof.
  exists [Rep 0 0 4096 0 0 0 0; Rep 1 8192 4096 0 0 0 0; Rep 2 8192 0 0 0 0 0; Rep 3 4096 4096 0 0 0 0].
  destruct (report_all dwfl_begin [Rep 0 0 4096 0 0 0 0; Rep 1 8192 4096 0 0 0 0; Rep 2 8192 0 0 0 0 0; Rep 3 4096 4096 0 0 0 0]) as [d| | |] eqn:E0; vm_compute in E0; try discriminate.
  exists d, (Seg 4096 8192 3). injection E0 as <-.
  split; [vm_compute; repeat (apply FOP_cons; [repeat (apply Forall_cons; [first [left; vm_compute; discriminate|right; vm_compute; discriminate]|]); apply Forall_nil|]); apply FOP_nil|].
  split; [cbn; lia|]. split; [reflexivity|]. split; [do 3 right; left; vm_compute; reflexivity|]. split; [cbn; lia|]. intros a [A1 A2]. cbn [g_start g_end] in A1, A2.
  rewrite (addrsegment_find _ bot); [|cbn; unfold le_addr; cbn; lia]. cbn [d_tbl find e_addr e_ndx].
  replace (0 <=? a) with true by lia. replace (4096 <=? a) with true by lia. replace (8192 <=? a) with false by lia. reflexivity.
Qed.
Print Assumptions C38_empty_refuted.

(* Asking for the module as well, once a module lies inside a segment, makes the segment
   disappear from its start on. *)
Theorem C38_module_refuted : exists rs ms a d d',
  Forall report_ok rs /\ report_all dwfl_begin rs = Ok d /\ addrsegment d a = Ok 5 /\
  addrsegment_mod d ms a = Ok (d', -1, Some 0) /\ addrsegment d' a = Ok (-1).
Proof.
  exists [Rep 5 4096 40960 4096 0 0 0], [(8192, 12288)], 8200.
  destruct (report_all dwfl_begin [Rep 5 4096 40960 4096 0 0 0]) as [d| | |] eqn:E0; vm_compute in E0; try discriminate. exists d. injection E0 as <-.
  match goal with |- exists d', _ /\ _ /\ _ /\ ?f = _ /\ _ => destruct f as [[[d' n] m]| | |] eqn:E1; vm_compute in E1; try discriminate end.
  exists d'. injection E1 as <- <- <-. split; [apply Forall_cons; [split; [cbn; lia|right; exists 12; split; [lia|reflexivity]]|apply Forall_nil]|].
  split; [reflexivity|]. split; [vm_compute; reflexivity|]. split; [reflexivity|vm_compute; reflexivity].
Qed.
Print Assumptions C38_module_refuted.

(* ------------------------------------------------------------------ *)
(* C47: modules *)
(* Specification: a module [lo, hi) occupies whole pages. *)
Definition m_start (al : Z) (m : Z * Z) : Z := floor_to al (fst m).
Definition m_end (al : Z) (m : Z * Z) : Z := ceil_to al (snd m).
Definition mod_ok (al : Z) (m : Z * Z) : Prop := 0 <= fst m < snd m /\ m_end al m < two64.
(* two modules with at least one address between their pages *)
Definition gap (al : Z) (m n : Z * Z) : Prop := m_end al m < m_start al n \/ m_end al n < m_start al m.
(* the module owns the address: it is in its pages, or it is the end address of a module
   that ends at a page boundary *)
Definition owns (al : Z) (m : Z * Z) (a : Z) : Prop := m_start al m <= a < m_end al m \/ (a = m_end al m /\ a = snd m).

Definition trip := (Z * Z * Z)%type.
Definition flat1 (x : trip) : list entry := let '(s, e, m) := x in [E s (-1) (Some m); E e (-1) None].
Definition flat (L : list trip) : list entry := concat (map flat1 L).
Fixpoint sortedL (p : Z) (L : list trip) : Prop :=
  match L with [] => True | (s, e, m) :: L => p < s /\ s < e /\ sortedL e L end.

Lemma flat_app : forall L1 L2, flat (L1 ++ L2) = flat L1 ++ flat L2.
Proof. intros. unfold flat. rewrite map_app, concat_app. reflexivity. Qed.
Lemma zlen_flat : forall L, zlen (flat L) = 2 * zlen L.
Proof. induction L as [|[[s e] m] L IH]; [reflexivity|]. unfold flat in *. cbn [map concat flat1]. rewrite zlen_app, IH, !zlen_cons. change (zlen (@nil entry)) with 0. lia. Qed.
Lemma flat_chain : forall L p, sortedL (e_addr p) L -> chain le_addr p (flat L).
Proof. induction L as [|[[s e] m] L IH]; intros p H; [exact I|]. destruct H as (H1 & H2 & H3). unfold flat. cbn [map concat flat1 app chain]. unfold le_addr at 1 2. cbn [e_addr]. split; [lia|]. split; [lia|]. apply IH. exact H3. Qed.
Lemma znth_flat : forall L q, znth (flat L) (2 * q) = option_map (fun x : trip => let '(s, e, m) := x in E s (-1) (Some m)) (znth L q) /\
  znth (flat L) (2 * q + 1) = option_map (fun x : trip => let '(s, e, m) := x in E e (-1) None) (znth L q).
Proof.
  induction L as [|[[s e] m] L IH]; intros q.
  - rewrite !znth_out by (change (zlen (flat [])) with 0; change (zlen (@nil trip)) with 0; lia). split; reflexivity.
  - unfold flat. cbn [map concat flat1 app]. fold (flat L). rewrite !znth_cons. destruct (Z.eqb_spec q 0) as [->|N]; [split; reflexivity|].
    replace (2 * q =? 0) with false by lia. replace (2 * q + 1 =? 0) with false by lia. replace (2 * q - 1 =? 0) with false by lia. replace (2 * q + 1 - 1 =? 0) with false by lia.
    replace (2 * q - 1 - 1) with (2 * (q - 1)) by lia. replace (2 * q + 1 - 1 - 1) with (2 * (q - 1) + 1) by lia. apply IH.
Qed.
Lemma sortedL_split : forall L p s e, sortedL p L -> s < e -> (forall x, In x L -> let '(s', e', _) := x in e' < s \/ e < s') ->
  exists L1 L2, L = L1 ++ L2 /\ (forall x, In x (flat L1) -> e_addr x < s) /\ (forall x, In x (flat L2) -> e < e_addr x) /\
    sortedL p L1 /\ (forall q, p < q -> q <= s -> (forall x, In x L1 -> snd (fst x) < q) -> True).
Proof.
  induction L as [|[[s0 e0] m0] L IH]; intros p s e S0 SE H.
  - exists [], []. split; [reflexivity|]. split; [intros x []|]. split; [intros x []|]. split; [exact I|]. auto.
  - destruct S0 as (S1 & S2 & S3). pose proof (H _ (or_introl eq_refl)) as H0. cbn in H0. destruct H0 as [H0|H0].
    + destruct (IH e0 s e S3 SE (fun x I => H x (or_intror I))) as (L1 & L2 & E1 & A & B & C & _). exists ((s0, e0, m0) :: L1), L2. split; [rewrite E1; reflexivity|].
      split; [|split; [exact B|split; [split; [exact S1|split; [exact S2|exact C]]|auto]]].
      intros x I. unfold flat in I. cbn [map concat flat1 app] in I. destruct I as [<-|[<-|I]]; [cbn; lia|cbn; lia|apply A, I].
    + exists [], ((s0, e0, m0) :: L). split; [reflexivity|]. split; [intros x []|]. split; [|split; [exact I|auto]].
      intros x I. assert (C : chain le_addr (E s0 0 None) (flat L)). { apply flat_chain. cbn. destruct L as [|[[s1 e1] m1] L]; [exact Logic.I|]. destruct S3 as (T1 & T2 & T3). split; [lia|]. split; assumption. }
      unfold flat in I. cbn [map concat flat1 app] in I. destruct I as [<-|[<-|I]]; [cbn; lia|cbn; lia|]. pose proof (chain_head _ _ _ C I). cbn in *. lia.
Qed.
Lemma sortedL_join : forall L1 L2 p s e m, sortedL p (L1 ++ L2) -> s < e -> p < s -> (forall x, In x (flat L1) -> e_addr x < s) -> (forall x, In x (flat L2) -> e < e_addr x) ->
  sortedL p (L1 ++ [(s, e, m)] ++ L2).
Proof.
  induction L1 as [|[[s0 e0] m0] L1 IH]; intros L2 p s e m S0 SE PS A B.
  - cbn [app] in *. split; [exact PS|]. split; [exact SE|]. destruct L2 as [|[[s1 e1] m1] L2]; [exact I|]. destruct S0 as (S1 & S2 & S3).
    split; [|split; assumption]. apply (B (E s1 (-1) (Some m1))). left. reflexivity.
  - destruct S0 as (S1 & S2 & S3). cbn [app]. split; [exact S1|]. split; [exact S2|]. apply IH; [exact S3|exact SE| | |exact B].
    + apply (A (E e0 (-1) None)). right. left. reflexivity.
    + intros x I. apply A. right. right. exact I.
Qed.

Record minv (d : dwfl) (al : Z) (done : list (Z * Z)) (L : list trip) : Prop := MInv {
  v_tbl : d_tbl d = flat L;
  v_sorted : sortedL (-1) L;
  v_mod : d_hasmod d = false -> L = [];
  v_al : d_align d = al;
  v_in : forall s e m, In (s, e, m) L <-> exists x, znth done m = Some x /\ s = m_start al x /\ e = m_end al x;
  v_nodup : NoDup (map snd L);
  v_segs : zlen (d_segs d) = zlen done }.

Lemma reify_one_inv : forall d al done L lo hi hint highest fixup, al_ok al -> minv d al done L -> cap_ok d -> hint < zlen (d_tbl d) ->
  mod_ok al (lo, hi) -> (forall x, In x done -> gap al x (lo, hi)) ->
  exists d' L' hint' highest' fixup', reify_one d lo hi (zlen done) hint highest fixup = Ok (d', hint', highest', fixup') /\
    minv d' al (done ++ [(lo, hi)]) L' /\ cap_ok d' /\ hint' < zlen (d_tbl d') /\ d_hasmod d' = true /\ (fixup = true \/ highest = -1 -> fixup' = true) /\ 0 <= highest'.
Proof.
  intros d al done L lo hi hint highest fixup ALO [VT VS VM VA VI VN VG] CAP HH [MO1 MO2] GAP. cbn [fst snd] in MO1. unfold m_end in MO2. cbn [snd] in MO2.
  unfold reify_one. rewrite VA.
  destruct (start_floor al lo ALO) as [SF SB]. { unfold ceil_to in MO2. destruct (al <=? 1) eqn:AE; [lia|]. pose proof (Z.mod_pos_bound (- hi) al). lia. }
  destruct (end_ceil al hi ALO ltac:(lia) MO2) as [EC EB]. rewrite SF, EC. cbv zeta.
  set (s := floor_to al lo) in *. set (e := ceil_to al hi) in *.
  assert (SE : s < e) by lia.
  assert (SEP : forall x, In x L -> let '(s', e', _) := x in e' < s \/ e < s').
  { intros [[s' e'] m'] I. apply VI in I as (x & X & -> & ->). apply znth_in in X as [X _]. exact (GAP x X). }
  destruct (sortedL_split L (-1) s e VS SE SEP) as (L1 & L2 & EL & A1 & A2 & _ & _).
  assert (CH : chain le_addr bot (d_tbl d)) by (rewrite VT; apply flat_chain; exact VS).
  destruct (lookup_found (d_tbl d) bot s hint CH HH) as (idx & -> & FD). cbn [obind].
  assert (TB : d_tbl d = flat L1 ++ flat L2) by (rewrite VT, EL, flat_app; reflexivity).
  pose proof (zlen_nonneg _ L1) as Z1. pose proof (zlen_nonneg _ L2) as Z2.
  assert (IX : idx = zlen (flat L1) - 1).
  { destruct FD as [[-> A]|(x & X & XL & XG)].
    - destruct L1 as [|[[s1 e1] m1] L1]; [reflexivity|]. exfalso. pose proof (A (E s1 (-1) (Some m1)) ltac:(rewrite TB; left; reflexivity)). pose proof (A1 (E s1 (-1) (Some m1)) (or_introl eq_refl)). cbn in *. lia.
    - destruct (Z.lt_trichotomy idx (zlen (flat L1) - 1)) as [C|[C|C]]; [exfalso|exact C|exfalso].
      + destruct (znth_some _ (flat L1) (zlen (flat L1) - 1)) as [y Y]; [apply znth_in in X; lia|].
        pose proof (A1 y (proj1 (znth_in _ _ _ _ Y))). pose proof (XG (zlen (flat L1) - 1) y ltac:(rewrite TB; rewrite znth_app_l by lia; exact Y) C). lia.
      + rewrite TB in X. rewrite znth_app_r in X by lia. pose proof (A2 x (proj1 (znth_in _ _ _ _ X))). lia. }
  assert (NS : flat L1 = [] \/ exists l x, flat L1 = l ++ [x] /\ e_addr x <> s).
  { destruct (flat L1) as [|z t] eqn:FL; [left; reflexivity|right]. destruct (exists_last (l := z :: t) ltac:(discriminate)) as (l & x & PX). exists l, x. split; [exact PX|].
    pose proof (A1 x ltac:(rewrite PX; apply in_app_iff; right; left; reflexivity)). lia. }
  destruct (insert_new d (flat L1) (flat L2) s e (-1) TB CAP NS) as (d1 & I1 & I2 & CAP1).
  assert (TE : tail_end (flat L2) e = [E e (-1) None]).
  { unfold tail_end. destruct (flat L2) as [|y [|y2 t]] eqn:FL; [reflexivity|reflexivity|]. pose proof (A2 y2 (or_intror (or_introl eq_refl))). replace (e_addr y2 =? e) with false by lia. reflexivity. }
  rewrite TE in I2.
  assert (STEP1 : (if idx <? 0 then d' <- insert d 0 s e (-1) ;; Ok (d', 0, true)
     else match znth (d_tbl d) idx with
          | None => UB
          | Some x => if s <? e_addr x then d' <- insert d (idx + 1) s e (e_ndx x) ;; Ok (d', idx + 1, true)
                      else if e_addr x <? s then d' <- insert d (idx + 1) s e (-1) ;; Ok (d', idx + 1, true)
                      else Ok (d, idx, false)
          end) = Ok (d1, zlen (flat L1), true)).
  { destruct (Z.ltb_spec idx 0) as [N|P].
    - replace 0 with (zlen (flat L1)) by (rewrite zlen_flat in *; lia). rewrite I1. reflexivity.
    - destruct (znth_some _ (flat L1) idx ltac:(lia)) as [x X]. rewrite TB, znth_app_l, X by lia.
      pose proof (A1 x (proj1 (znth_in _ _ _ _ X))). replace (s <? e_addr x) with false by lia. replace (e_addr x <? s) with true by lia.
      replace (idx + 1) with (zlen (flat L1)) by lia. rewrite I1. reflexivity. }
  rewrite STEP1. cbn [obind].
  assert (T1 : d_tbl d1 = flat L1 ++ E s (-1) None :: E e (-1) None :: flat L2) by (rewrite I2; reflexivity).
  assert (NX : forall (x : entry) a b t, znth (flat L1 ++ a :: b :: t) (zlen (flat L1) + 1) = Some b).
  { intros _ a b t. rewrite znth_app_r by lia. replace (zlen (flat L1) + 1 - zlen (flat L1)) with 1 by lia. rewrite !znth_cons. reflexivity. }
  rewrite T1, (NX bot). cbn [e_addr]. replace (e <? e) with false by lia. cbn [obind].
  assert (CL : (if d_hasmod d1 then d_tbl d1 else clear_mods (d_tbl d1)) = d_tbl d1).
  { rewrite I2. cbn [set_tbl d_hasmod d_tbl]. destruct (d_hasmod d) eqn:HM; [reflexivity|]. pose proof (VM eq_refl) as L0. rewrite L0 in EL. symmetry in EL. apply app_eq_nil in EL as [-> ->]. reflexivity. }
  rewrite CL. rewrite T1. set (t0 := flat L1 ++ E s (-1) None :: E e (-1) None :: flat L2).
  assert (MK : mark (S (length t0)) t0 (zlen (flat L1)) e (zlen done) = Ok (flat (L1 ++ [(s, e, zlen done)] ++ L2), zlen (flat L1) + 1)).
  { cbn [mark]. unfold t0. rewrite znth_snoc, zset_app, (NX bot). cbn [e_addr set_mod e_ndx]. replace (e <? e) with false by lia. rewrite !flat_app. reflexivity. }
  rewrite MK. cbn [obind].
  assert (ZF : zlen (flat (L1 ++ [(s, e, zlen done)] ++ L2)) = zlen (flat L1) + 2 + zlen (flat L2)) by (rewrite !flat_app, !zlen_app, !zlen_flat; change (zlen [(s, e, zlen done)]) with 1; lia).
  eexists _, (L1 ++ [(s, e, zlen done)] ++ L2), _, _, _. split; [reflexivity|]. split.
  { constructor.
    - reflexivity.
    - apply sortedL_join; [rewrite <- EL; exact VS|exact SE|lia|exact A1|exact A2].
    - cbn [set_mods d_hasmod]. discriminate.
    - cbn [set_mods d_align]. rewrite I2. exact VA.
    - intros s' e' m'. rewrite !in_app_iff. split.
      + intros [I|[[I|[]]|I]].
        * assert (IL : In (s', e', m') L) by (rewrite EL; apply in_app_iff; left; exact I). apply VI in IL as (x & X & Y). exists x. split; [|exact Y]. rewrite znth_app_l; [exact X|apply znth_in in X; lia].
        * injection I as <- <- <-. exists (lo, hi). split; [apply znth_snoc|split; reflexivity].
        * assert (IL : In (s', e', m') L) by (rewrite EL; apply in_app_iff; right; exact I). apply VI in IL as (x & X & Y). exists x. split; [|exact Y]. rewrite znth_app_l; [exact X|apply znth_in in X; lia].
      + intros (x & X & Y). destruct (Z.eq_dec m' (zlen done)) as [->|N].
        * rewrite znth_snoc in X. injection X as <-. destruct Y as [-> ->]. right. left. left. reflexivity.
        * assert (XD : znth done m' = Some x). { pose proof (znth_in _ _ _ _ X) as [_ XB]. rewrite zlen_app in XB. change (zlen [(lo, hi)]) with 1 in XB. rewrite znth_app_l in X by lia. exact X. }
          assert (IL : In (s', e', m') L) by (apply VI; exists x; split; assumption). rewrite EL in IL. apply in_app_iff in IL as [IL|IL]; [left; exact IL|right; right; exact IL].
    - rewrite !map_app. cbn [map snd]. apply NoDup_Add with (a := zlen done) (l := map snd L).
      + rewrite EL, map_app. apply Add_app.
      + split; [exact VN|]. intros I. apply in_map_iff in I as ([[s' e'] m'] & E' & I). cbn in E'. subst m'. apply VI in I as (x & X & _). apply znth_in in X. lia.
    - cbn [set_mods d_segs]. rewrite I2. cbn [set_tbl d_segs]. rewrite !zlen_app, VG. reflexivity. }
  split.
  { destruct CAP1 as [[C1 C2]|[C1 C2]]; [rewrite T1 in C2; apply app_eq_nil in C2; destruct C2; discriminate|]. right. cbn [set_mods d_alloc d_tbl]. split; [exact C1|]. rewrite ZF.
    rewrite T1 in C2. rewrite zlen_app, !zlen_cons in C2. lia. }
  cbn [set_mods d_tbl d_hasmod]. split; [pose proof (zlen_nonneg _ (flat (L1 ++ [(s, e, zlen done)] ++ L2))); destruct (zlen (flat L1) + 1 <? zlen (flat (L1 ++ [(s, e, zlen done)] ++ L2))) eqn:Q; lia|].
  split; [reflexivity|]. split; [|pose proof (zlen_nonneg _ (flat L1)); lia].
  intros [->| ->]; [destruct (true && (highest <=? zlen (flat L1) + 1 - 1)); reflexivity|]. pose proof (zlen_nonneg _ (flat L1)). replace (true && (-1 <=? zlen (flat L1) + 1 - 1)) with true by lia. reflexivity.
Qed.

Lemma reify_loop_inv : forall ms d al done L hint highest fixup, al_ok al -> minv d al done L -> cap_ok d -> hint < zlen (d_tbl d) ->
  Forall (mod_ok al) ms -> ForallOrdPairs (gap al) (done ++ ms) -> (fixup = true \/ highest = -1) ->
  exists d' L' fixup', reify_loop d ms (zlen done) hint highest fixup = Ok (d', fixup') /\ minv d' al (done ++ ms) L' /\ (ms <> [] -> d_hasmod d' = true /\ fixup' = true).
Proof.
  induction ms as [|[lo hi] ms IH]; intros d al done L hint highest fixup ALO IV CAP HH F GP FX; cbn [reify_loop].
  { exists d, L, fixup. split; [reflexivity|]. rewrite app_nil_r. split; [exact IV|congruence]. }
  inversion F as [|x y F1 F2]; subst.
  assert (G1 : forall x, In x done -> gap al x (lo, hi)).
  { intros x I. clear - GP I. induction done as [|y done IHd]; [contradiction|]. cbn [app] in GP. inversion GP as [|y' l FA GP']; subst. destruct I as [->|I]; [|apply IHd; assumption].
    rewrite Forall_forall in FA. apply FA, in_app_iff. right. left. reflexivity. }
  destruct (reify_one_inv d al done L lo hi hint highest fixup ALO IV CAP HH F1 G1) as (d' & L' & h' & hh' & f' & -> & IV' & CAP' & HH' & HM & FX' & _). cbn [obind].
  assert (ZD : zlen done + 1 = zlen (done ++ [(lo, hi)])) by (rewrite zlen_app; reflexivity). rewrite ZD.
  destruct (IH d' al (done ++ [(lo, hi)]) L' h' hh' f' ALO IV' CAP' HH' F2) as (d2 & L2 & f2 & E1 & E2 & E3).
  { rewrite <- app_assoc. exact GP. } { left. apply FX'. exact FX. }
  exists d2, L2, f2. split; [exact E1|]. split; [rewrite <- app_assoc in E2; exact E2|]. intros _. destruct ms as [|m ms]; [|apply E3; discriminate].
  cbn [reify_loop] in E1. injection E1 as <- <-. split; [exact HM|apply FX', FX].
Qed.

Lemma fix_segs_len : forall t i sg, zlen (fix_segs t i sg) = zlen sg.
Proof. induction t as [|x t IH]; intros i sg; cbn [fix_segs]; [reflexivity|]. rewrite IH. destruct (e_mod x); [apply zlen_zset|reflexivity]. Qed.
Lemma fix_segs_other : forall L i sg m, ~ In m (map snd L) -> znth (fix_segs (flat L) i sg) m = znth sg m.
Proof.
  induction L as [|[[s e] m0] L IH]; intros i sg m N; [reflexivity|]. unfold flat. cbn [map concat flat1 app fix_segs e_mod]. fold (flat L).
  cbn [map snd In] in N. rewrite IH by tauto. apply znth_zset_neq. intros ->. tauto.
Qed.
Lemma fix_segs_spec : forall L i sg q s e m, NoDup (map snd L) -> znth L q = Some (s, e, m) -> 0 <= m < zlen sg -> znth (fix_segs (flat L) i sg) m = Some (i + 2 * q).
Proof.
  induction L as [|[[s0 e0] m0] L IH]; intros i sg q s e m ND Z0 M; [apply znth_in in Z0 as [[] _]|]. unfold flat. cbn [map concat flat1 app fix_segs e_mod]. fold (flat L).
  cbn [map snd] in ND. inversion ND as [|a b N1 N2]; subst. rewrite znth_cons in Z0. destruct (Z.eqb_spec q 0) as [->|NQ].
  - injection Z0 as -> -> ->. rewrite fix_segs_other by exact N1. rewrite znth_zset_eq by exact M. f_equal. lia.
  - rewrite (IH (i + 1 + 1) _ (q - 1) s e m N2 Z0) by (rewrite zlen_zset; exact M). f_equal. lia.
Qed.

(* The result of building the table *)
Lemma reify_spec : forall d ms, d_tbl d = [] -> d_hasmod d = false -> cap_ok d -> al_ok (d_align d) ->
  Forall (mod_ok (d_align d)) ms -> ForallOrdPairs (gap (d_align d)) ms ->
  exists d' L, reify d ms = Ok d' /\ minv d' (d_align d) ms L /\
    (ms <> [] -> d_hasmod d' = true /\ forall q s e m, znth L q = Some (s, e, m) -> znth (d_segs d') m = Some (2 * q)).
Proof.
  intros d ms T HM CAP ALO F GP. unfold reify. set (d0 := Dwfl _ _ _ _ _ _ _ _ _).
  assert (IV : minv d0 (d_align d) [] []).
  { constructor; [exact T|exact I|reflexivity|reflexivity| |apply NoDup_nil|reflexivity].
    intros s e m. split; [intros []|]. intros (x & X & _). apply znth_in in X as [[] _]. }
  destruct (reify_loop_inv ms d0 (d_align d) [] [] (-1) (-1) false ALO IV CAP) as (d' & L & f & E1 & E2 & E3); [cbn; rewrite T; cbn; lia|exact F|exact GP|right; reflexivity|].
  change (zlen (@nil (Z * Z))) with 0 in E1. rewrite E1. cbn [obind]. cbn [app] in E2. destruct E2 as [VT VS VM VA VI VN VG].
  eexists _, L. split; [reflexivity|]. split.
  - destruct f; constructor; cbn [d_tbl d_hasmod d_align d_segs]; try assumption. rewrite fix_segs_len. exact VG.
  - intros NE. destruct (E3 NE) as [H1 ->]. cbn [d_hasmod d_segs]. split; [exact H1|]. intros q s e m Q. rewrite VT. rewrite (fix_segs_spec L 0 _ q s e m VN Q); [f_equal; lia|].
    rewrite VG. assert (I : In (s, e, m) L) by (apply (znth_in _ _ _ _ Q)). apply VI in I as (x & X & _). apply znth_in in X. lia.
Qed.

Lemma in_znth : forall A (l : list A) x, In x l -> exists i, znth l i = Some x.
Proof.
  intros A l x I. apply In_nth_error in I as [n I]. exists (Z.of_nat n). assert ((n < length l)%nat) by (apply nth_error_Some; congruence).
  unfold znth, zlen. replace ((0 <=? Z.of_nat n) && (Z.of_nat n <? Z.of_nat (length l))) with true by lia. rewrite Nat2Z.id. exact I.
Qed.

(* C47: without reported segments, for modules with at least one address between them, the
   module that owns an address is found; no other address has a module. *)
Theorem C47_addrmodule_partial : forall d ms a, d_tbl d = [] -> d_hasmod d = false -> cap_ok d -> al_ok (d_align d) ->
  Forall (mod_ok (d_align d)) ms -> ForallOrdPairs (gap (d_align d)) ms -> 0 <= a ->
  exists d' r, addrmodule d ms a = Ok (d', r) /\
    (forall i m, znth ms i = Some m -> owns (d_align d) m a -> r = Some i) /\
    (forall i, r = Some i -> exists m, znth ms i = Some m /\ owns (d_align d) m a).
Proof.
  intros d ms a T HM CAP ALO F GP A0. unfold addrmodule, addrsegment_mod. rewrite HM.
  destruct (reify_spec d ms T HM CAP ALO F GP) as (d' & L & -> & [VT VS VM VA VI VN VG] & HMS). cbn [obind].
  assert (CH : chain le_addr bot (d_tbl d')) by (rewrite VT; apply flat_chain; exact VS).
  assert (NH : -1 < zlen (d_tbl d')) by (pose proof (zlen_nonneg _ (d_tbl d')); lia).
  destruct (lookup_found (d_tbl d') bot a (-1) CH NH) as (idx & -> & FD). cbn [obind].
  (* position of a module and the index found *)
  assert (STR : forall q s e m q' s' e' m', znth L q = Some (s, e, m) -> znth L q' = Some (s', e', m') -> q < q' -> e < s').
  { clear - VS. revert VS. generalize (-1). induction L as [|[[s0 e0] m0] L IH]; intros p VS q s e m q' s' e' m' Q Q' LT; [apply znth_in in Q as [[] _]|].
    destruct VS as (S1 & S2 & S3). rewrite znth_cons in Q, Q'. destruct (Z.eqb_spec q 0) as [->|NQ].
    - injection Q as -> -> ->. replace (q' =? 0) with false in Q' by lia. apply znth_in in Q' as [Q' _].
      clear - S3 Q'. revert e S3. induction L as [|[[s1 e1] m1] L IH]; intros e S3; [contradiction|]. destruct S3 as (T1 & T2 & T3). destruct Q' as [Q'|Q']; [injection Q' as -> -> ->; exact T1|]. pose proof (IH Q' e1 T3). lia.
    - destruct (Z.eqb_spec q' 0) as [->|NQ']; [apply znth_in in Q; lia|]. eapply (IH e0 S3 (q - 1) s e m (q' - 1)); [exact Q|exact Q'|lia]. }
  assert (SLE : forall q s e m, znth L q = Some (s, e, m) -> s < e).
  { intros q s e m Q. apply znth_in in Q as [Q _]. apply VI in Q as (x & X & -> & ->). apply znth_in in X as [X _]. rewrite Forall_forall in F. destruct (F x X) as [M1 M2]. unfold m_start, m_end in *.
    destruct (end_ceil (d_align d) (snd x) ALO ltac:(lia) M2). destruct (start_floor (d_align d) (fst x) ALO); [lia|]. lia. }
  assert (LOC : forall q s e m, znth L q = Some (s, e, m) -> (s <= a < e -> idx = 2 * q) /\ (a = e -> idx = 2 * q + 1)).
  { intros q s e m Q. destruct (znth_flat L q) as [E0 E1]. rewrite Q in E0, E1. cbn [option_map] in E0, E1. rewrite <- VT in E0, E1.
    destruct FD as [[-> AL]|(x & X & XL & XG)].
    - pose proof (AL _ (proj1 (znth_in _ _ _ _ E0))). cbn in *. pose proof (SLE _ _ _ _ Q). lia.
    - assert (LE : forall j y, znth (d_tbl d') j = Some y -> j <= idx -> e_addr y <= a). { intros j y Y J. pose proof (chain_le _ _ _ _ _ _ CH Y X J). lia. }
      split; intros H.
      + destruct (Z.lt_trichotomy idx (2 * q)) as [C|[C|C]]; [|exact C|].
        * pose proof (XG _ _ E0 C). cbn in *. lia.
        * pose proof (LE _ _ E1 ltac:(lia)). cbn in *. lia.
      + destruct (Z.lt_trichotomy idx (2 * q + 1)) as [C|[C|C]]; [|exact C|].
        * pose proof (XG _ _ E1 C). cbn in *. lia.
        * destruct (znth_some _ L (q + 1)) as [[[s2 e2] m2] Q2].
          { apply znth_in in X as [_ XB]. rewrite VT, zlen_flat in XB. apply znth_in in Q. lia. }
          destruct (znth_flat L (q + 1)) as [E2 _]. rewrite Q2 in E2. cbn [option_map] in E2. rewrite <- VT in E2.
          pose proof (LE _ _ E2 ltac:(lia)). pose proof (STR _ _ _ _ _ _ _ _ Q Q2 ltac:(lia)). cbn in *. lia. }
  assert (OWN : forall i m, znth ms i = Some m -> exists q, znth L q = Some (m_start (d_align d) m, m_end (d_align d) m, i)).
  { intros i m M. apply in_znth. apply VI. exists m. split; [exact M|split; reflexivity]. }
  destruct (Z.ltb_spec idx 0) as [N|P].
  { cbn [obind]. eexists _, None. split; [reflexivity|]. split; [|discriminate]. intros i m M O. destruct (OWN i m M) as [q Q].
    destruct (LOC _ _ _ _ Q) as [L1 L2]. apply znth_in in Q. destruct O as [O|[O _]]; [specialize (L1 O)|specialize (L2 O)]; lia. }
  destruct FD as [[-> _]|(x & X & XL & XG)]; [lia|]. rewrite X.
  assert (LN : L <> []) by (intros ->; rewrite VT in X; apply znth_in in X as [[] _]).
  assert (MN : ms <> []). { intros ->. destruct L as [|[[s e] m] L]; [congruence|]. destruct (proj1 (VI s e m) (or_introl eq_refl)) as (y & Y & _). apply znth_in in Y as [[] _]. }
  destruct (HMS MN) as [HM' _]. rewrite HM'. cbn [negb obind].
  assert (EO : exists q, idx = 2 * q \/ idx = 2 * q + 1) by (exists (idx / 2); pose proof (Z.div_mod idx 2); pose proof (Z.mod_pos_bound idx 2); lia).
  destruct EO as [q EO]. destruct (znth_flat L q) as [E0 E1]. rewrite <- VT in E0, E1.
  assert (QB : 0 <= q < zlen L) by (apply znth_in in X as [_ XB]; rewrite VT, zlen_flat in XB; lia).
  destruct (znth_some _ L q QB) as [[[s e] m] Q]. rewrite Q in E0, E1. cbn [option_map] in E0, E1.
  assert (IM : exists y, znth ms m = Some y /\ s = m_start (d_align d) y /\ e = m_end (d_align d) y) by (apply VI, (znth_in _ _ _ _ Q)).
  destruct IM as (y & Y1 & -> & ->).
  assert (UNI : forall i z q', znth ms i = Some z -> znth L q' = Some (m_start (d_align d) z, m_end (d_align d) z, i) -> q' = q -> i = m) by (intros i z q' _ Q' ->; congruence).
  destruct EO as [->| ->].
  - rewrite E0 in X. injection X as <-. cbn [e_mod e_ndx]. eexists _, (Some m). split; [reflexivity|]. split.
    + intros i z M O. destruct (OWN i z M) as [q' Q']. destruct (LOC _ _ _ _ Q') as [L1 L2]. f_equal. symmetry. apply (UNI i z q' M Q'). destruct O as [O|[O _]]; [specialize (L1 O)|specialize (L2 O)]; lia.
    + intros i [= <-]. exists y. split; [exact Y1|]. left. cbn in XL. split; [exact XL|]. apply (XG _ _ E1). lia.
  - rewrite E1 in X. injection X as <-. cbn [e_mod e_ndx e_addr]. replace (0 <? 2 * q + 1) with true by lia. cbn [andb e_addr] in *.
    replace (2 * q + 1 - 1) with (2 * q) by lia. rewrite E0. cbn [e_mod]. rewrite Y1. destruct y as [ylo yhi].
    eexists _, (if m_end (d_align d) (ylo, yhi) =? a then if yhi =? a then Some m else None else None).
    split; [destruct (m_end (d_align d) (ylo, yhi) =? a); reflexivity|]. split.
    + intros i z M O. destruct (OWN i z M) as [q' Q']. destruct (LOC _ _ _ _ Q') as [L1 L2]. destruct O as [O|[O O2]]; [specialize (L1 O); lia|]. specialize (L2 O).
      assert (QQ : q' = q) by lia. pose proof (UNI i z q' M Q' QQ) as ->. rewrite Y1 in M. injection M as <-. cbn [snd] in O2. rewrite <- O, Z.eqb_refl, <- O2, Z.eqb_refl. reflexivity.
    + intros i R. destruct (Z.eqb_spec (m_end (d_align d) (ylo, yhi)) a) as [Q1|]; [|discriminate]. destruct (Z.eqb_spec yhi a) as [Q2|]; [|discriminate]. injection R as <-.
      exists (ylo, yhi). split; [exact Y1|]. right. cbn [snd]. split; lia.
Qed.
Print Assumptions C47_addrmodule_partial.

Definition ex_ms : list (Z * Z) := [(20480, 28672); (4096, 8000); (40000, 50000)].
Definition ex_d : dwfl := Dwfl 4096 [] 0 false [] 0 0 0 0.
Example C47_nonvacuous : cap_ok ex_d /\ al_ok (d_align ex_d) /\ Forall (mod_ok 4096) ex_ms /\ ForallOrdPairs (gap 4096) ex_ms /\
  map (fun a => match addrmodule ex_d ex_ms a with Ok (_, r) => r | _ => Some (-1) end) [4095; 4096; 8100; 8192; 20480; 28671; 28672; 28673; 36864; 53247; 53248] =
  [None; Some 1; Some 1; None; Some 0; Some 0; Some 0; None; Some 2; Some 2; None].
Proof.
  split; [left; split; reflexivity|]. split; [right; exists 12; split; [lia|reflexivity]|]. split.
  - repeat (apply Forall_cons; [split; [cbn; lia|vm_compute; reflexivity]|]). apply Forall_nil.
  - split; [|vm_compute; reflexivity]. repeat (apply FOP_cons; [repeat (apply Forall_cons; [first [left; vm_compute; reflexivity|right; vm_compute; reflexivity]|]); apply Forall_nil|]). apply FOP_nil.
Qed.

(* Two modules that touch, reported in order: every address above is given to the second. *)
Theorem C47_adjacent_refuted : exists ms, Forall (mod_ok 0) ms /\ znth ms 1 = Some (8192, 12288) /\ zlen ms = 2 /\
  exists d', addrmodule dwfl_begin ms 8192 = Ok (d', Some 1) /\ forall a, 8192 <= a -> exists d2, addrmodule d' ms a = Ok (d2, Some 1).
Proof.
  exists [(4096, 8192); (8192, 12288)]. split; [repeat (apply Forall_cons; [split; [cbn; lia|vm_compute; reflexivity]|]); apply Forall_nil|].
  split; [reflexivity|]. split; [reflexivity|].
  destruct (addrmodule dwfl_begin [(4096, 8192); (8192, 12288)] 8192) as [[d' r]| | |] eqn:E0; vm_compute in E0; try discriminate. injection E0 as <- <-.
  eexists. split; [reflexivity|]. intros a A. unfold addrmodule, addrsegment_mod. cbn [d_hasmod obind d_tbl].
  destruct (lookup_found [E 4096 (-1) (Some 0); E 8192 (-1) (Some 1)] bot a (-1)) as (idx & -> & FD); [cbn; unfold le_addr; cbn; lia|cbn; lia|].
  assert (idx = 1) as ->. { destruct FD as [[_ B]|(x & X & XL & XG)]; [pose proof (B (E 8192 (-1) (Some 1)) ltac:(right; left; reflexivity)); cbn in *; lia|].
    pose proof (znth_in _ _ _ _ X) as [_ XB]. change (zlen [E 4096 (-1) (Some 0); E 8192 (-1) (Some 1)]) with 2 in XB. destruct (Z.eq_dec idx 0) as [->|]; [|lia].
    pose proof (XG 1 (E 8192 (-1) (Some 1)) eq_refl ltac:(lia)). cbn in *. lia. }
  cbn. eexists. reflexivity.
Qed.
Print Assumptions C47_adjacent_refuted.

(* A module that begins below the first reported segment and reaches into it: addresses of
   the module have no module. *)
Theorem C47_segments_refuted : exists rs ms d a, report_all dwfl_begin rs = Ok d /\ Forall (mod_ok 0) ms /\
  (exists m, znth ms 0 = Some m /\ fst m <= a < snd m) /\ exists d', addrmodule d ms a = Ok (d', None).
Proof.
  exists [Rep 0 8192 8192 0 0 0 0], [(4096, 12288)].
  destruct (report_all dwfl_begin [Rep 0 8192 8192 0 0 0 0]) as [d| | |] eqn:E0; vm_compute in E0; try discriminate. injection E0 as <-. eexists _, 9000.
  split; [reflexivity|]. split; [apply Forall_cons; [split; [cbn; lia|vm_compute; reflexivity]|apply Forall_nil]|].
  split; [exists (4096, 12288); split; [reflexivity|cbn; lia]|].
  match goal with |- exists d', ?f = _ => destruct f as [[d' r]| | |] eqn:E1; vm_compute in E1; try discriminate end. injection E1 as <- <-. eexists. reflexivity.
Qed.
Print Assumptions C47_segments_refuted.

(* ------------------------------------------------------------------ *)
(* C48: an iteration stopped after module m resumes with the next module. *)
Theorem C48_resume_list : forall d n m, d_hasmod d = false -> 0 <= m < n ->
  exists o, getmodules_stop d n (m + 1) m = Ok o /\ 0 < o /\
    getmodules_start d n o = Ok (if m + 1 <? n then Some (m + 1) else None).
Proof.
  intros d n m H M. unfold getmodules_stop. rewrite H. cbn [negb]. eexists. split; [reflexivity|]. split; [lia|].
  unfold getmodules_start. replace ((4 * (m + 1) + 1) mod 4) with 1 by (rewrite Z.add_comm, Z.mul_comm, Z.mod_add by lia; reflexivity). cbn [Z.eqb Pos.eqb].
  replace ((4 * (m + 1) + 1) / 4) with (m + 1) by (apply Z.div_unique with 1; lia).
  replace (n <? m + 1) with false by lia. destruct (Z.eqb_spec (m + 1) n); [replace (m + 1 <? n) with false by lia|replace (m + 1 <? n) with true by lia]; reflexivity.
Qed.
Print Assumptions C48_resume_list.

(* With the lookup table built from the modules alone *)
Theorem C48_resume_table_partial : forall d ms m c, d_tbl d = [] -> d_hasmod d = false -> cap_ok d -> al_ok (d_align d) ->
  Forall (mod_ok (d_align d)) ms -> ForallOrdPairs (gap (d_align d)) ms -> 0 <= m < zlen ms ->
  exists d' o, reify d ms = Ok d' /\ d_hasmod d' = true /\ getmodules_stop d' (zlen ms) c m = Ok o /\
    getmodules_start d' (zlen ms) o = Ok (if m + 1 <? zlen ms then Some (m + 1) else None).
Proof.
  intros d ms m c T HM CAP ALO F GP M. destruct (reify_spec d ms T HM CAP ALO F GP) as (d' & L & -> & [VT VS VM VA VI VN VG] & HMS).
  assert (MN : ms <> []) by (intros ->; change (zlen (@nil (Z * Z))) with 0 in M; lia). destruct (HMS MN) as [HM' SG].
  exists d'. unfold getmodules_stop, getmodules_start. rewrite HM'. cbn [negb].
  assert (M4 : forall x, (4 * x + 2) mod 4 = 2) by (intros x; rewrite Z.add_comm, Z.mul_comm, Z.mod_add by lia; reflexivity).
  assert (D4 : forall x, (4 * x + 2) / 4 = x) by (intros x; rewrite Z.add_comm, Z.mul_comm, Z.div_add by lia; reflexivity).
  destruct (Z.eqb_spec (m + 1) (zlen ms)) as [EN|NN].
  - eexists. split; [reflexivity|]. split; [reflexivity|]. split; [reflexivity|]. rewrite M4, D4. cbn [Z.eqb Pos.eqb andb]. replace (zlen (d_tbl d') + 1 - 1 =? zlen (d_tbl d')) with true by lia.
    replace (m + 1 <? zlen ms) with false by lia. reflexivity.
  - destruct (znth_some _ ms (m + 1) ltac:(lia)) as [x X].
    assert (IL : In (m_start (d_align d) x, m_end (d_align d) x, m + 1) L) by (apply VI; exists x; split; [exact X|split; reflexivity]).
    apply in_znth in IL as [q Q]. rewrite (SG _ _ _ _ Q). eexists. split; [reflexivity|]. split; [reflexivity|]. split; [reflexivity|].
    rewrite M4, D4. cbn [Z.eqb Pos.eqb andb]. destruct (znth_flat L q) as [E0 _]. change (@znth trip L q = Some (m_start (d_align d) x, m_end (d_align d) x, m + 1)) in Q. rewrite Q in E0. cbn [option_map] in E0. rewrite <- VT in E0.
    pose proof (znth_in _ _ _ _ E0) as [_ B]. replace (2 * q + 1 - 1) with (2 * q) by lia. replace (2 * q =? zlen (d_tbl d')) with false by lia.
    replace ((2 * q <? 0) || (zlen (d_tbl d') <? 2 * q)) with false by lia. rewrite E0. cbn [e_mod]. replace (m + 1 <? zlen ms) with true by lia. reflexivity.
Qed.
Print Assumptions C48_resume_table_partial.
Example C48_nonvacuous : match reify ex_d ex_ms with Ok d => d_segs d = [2; 0; 4] /\ getmodules_stop d 3 1 0 = Ok 6 /\ getmodules_start d 3 6 = Ok (Some 1) | _ => False end.
Proof. vm_compute. repeat split; reflexivity. Qed.

(* Two modules that coincide with reported segments and a third below them: the positions
   of the first two are not corrected, and stopping after module 0 resumes with module 0. *)
Theorem C48_resume_refuted : exists rs ms d d' o, report_all dwfl_begin rs = Ok d /\
  Forall (mod_ok 0) ms /\ ForallOrdPairs (gap 0) ms /\ reify d ms = Ok d' /\
  getmodules_stop d' (zlen ms) 1 0 = Ok o /\ getmodules_start d' (zlen ms) o = Ok (Some 0).
Proof.
  exists [Rep 0 8192 4096 0 0 0 0; Rep 1 16384 4096 0 0 0 0], [(8192, 12288); (16384, 20480); (0, 4096)].
  destruct (report_all dwfl_begin [Rep 0 8192 4096 0 0 0 0; Rep 1 16384 4096 0 0 0 0]) as [d| | |] eqn:E0; try (vm_compute in E0; discriminate). exists d.
  destruct (reify d [(8192, 12288); (16384, 20480); (0, 4096)]) as [d'| | |] eqn:E1;
    vm_compute in E0; injection E0 as <-; vm_compute in E1; try discriminate. exists d', 14. injection E1 as <-.
  split; [reflexivity|]. split; [repeat (apply Forall_cons; [split; [cbn; lia|vm_compute; reflexivity]|]); apply Forall_nil|].
  split; [repeat (apply FOP_cons; [repeat (apply Forall_cons; [first [left; vm_compute; reflexivity|right; vm_compute; reflexivity]|]); apply Forall_nil|]); apply FOP_nil|].
  split; [reflexivity|]. split; vm_compute; reflexivity.
Qed.
Print Assumptions C48_resume_refuted.
