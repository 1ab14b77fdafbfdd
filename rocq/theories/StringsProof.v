From Coq Require Import Sorting.Sorted.
From Verif Require Import Base StringsModel StringsSpec.

Definition ot (u : option bytes) : bytes := match u with Some u => u | None => [] end.
(* The strings that end, in order, with their offsets; rv is the run before l, backwards, and l is at offset o. *)
Fixpoint scan (gd : Z -> bool) (min o : Z) (rv l : bytes) : list line :=
  match l with
  | [] => []
  | c :: r => if gd c then scan gd min (o + 1) (c :: rv) r
              else (if min <=? zlen rv then [(o - zlen rv, rev rv)] else []) ++ scan gd min (o + 1) [] r
  end.
Lemma zl_rev (l : bytes) : zlen (rev l) = zlen l. Proof. unfold zlen. rewrite rev_length. reflexivity. Qed.
Lemma app_split {A} (p : list A) : forall a q r, a ++ r = p ++ q -> (length p <= length a)%nat -> exists t, a = p ++ t /\ q = t ++ r.
Proof.
  induction p as [|x p IH]; intros [|y a] q r E L; cbn in *; try lia; try (eexists; split; [reflexivity | now symmetry]).
  injection E as -> E. destruct (IH a q r E ltac:(lia)) as (t & -> & ->). exists t. auto.
Qed.
Lemma run_eq (gd : Z -> bool) : forall s t c c' b r, s ++ c' :: b = t ++ c :: r -> Forall (fun c => gd c = true) s -> Forall (fun c => gd c = true) t -> gd c = false -> gd c' = false -> s = t.
Proof.
  induction s as [|x s IH]; intros [|y t] c c' b r E S T C C'; cbn in E; injection E; intros; subst; auto.
  - inversion T; congruence.
  - inversion S; congruence.
  - f_equal. inversion S; inversion T; subst. eapply IH; eauto.
Qed.
Lemma scan_prints (gd : Z -> bool) min base : forall l pre rv, Forall (fun c => gd c = true) rv -> (pre = [] \/ exists a d, pre = a ++ [d] /\ gd d = false) ->
  (forall x, In x (scan gd min (base + zlen pre + zlen rv) rv l) <-> found gd min base (pre ++ rev rv ++ l) x /\ base + zlen pre <= fst x) /\
  StronglySorted (fun x y => fst x < fst y) (scan gd min (base + zlen pre + zlen rv) rv l).
Proof.
  induction l as [|c r IH]; intros pre rv G P; cbn [scan].
  - split; [|constructor]. intros x. split; [intros []|]. intros ((a & c & b & E & F & _ & _ & C & _) & L). exfalso.
    rewrite app_nil_r in E. symmetry in E. destruct (app_split pre a (rev rv) (snd x ++ c :: b) E) as (t & -> & T); [unfold zlen in *; lia|].
    assert (In c (rev rv)) by (rewrite T, !in_app_iff; right; right; left; reflexivity). apply in_rev in H. rewrite Forall_forall in G. specialize (G _ H). congruence.
  - destruct (gd c) eqn:C.
    + destruct (IH pre (c :: rv) ltac:(constructor; auto) P) as (I1 & I2). rewrite zlen_cons in I1, I2.
      replace (base + zlen pre + zlen rv + 1) with (base + zlen pre + (1 + zlen rv)) by lia.
      cbn [rev] in I1. split; [|exact I2]. intros x. rewrite I1. rewrite <- app_assoc. reflexivity.
    + destruct (IH (pre ++ rev rv ++ [c]) [] ltac:(constructor)) as (I1 & I2); [right; exists (pre ++ rev rv), c; rewrite app_assoc; auto|].
      replace (base + zlen (pre ++ rev rv ++ [c]) + zlen []) with (base + zlen pre + zlen rv + 1) in I1, I2 by (rewrite !zlen_app, zl_rev, zlen_cons, zlen_nil; lia).
      cbn [rev app] in I1. rewrite <- !app_assoc in I1. cbn [app] in I1.
      assert (Z1 : zlen (pre ++ rev rv ++ [c]) = zlen pre + zlen rv + 1) by (rewrite !zlen_app, zl_rev, zlen_cons, zlen_nil; lia). rewrite Z1 in I1.
      assert (Gr : Forall (fun c => gd c = true) (rev rv)) by (apply Forall_rev; exact G).
      assert (K : forall x, found gd min base (pre ++ rev rv ++ c :: r) x -> base + zlen pre <= fst x -> fst x < base + (zlen pre + zlen rv + 1) -> x = (base + zlen pre, rev rv) /\ min <= zlen rv).
      { clear I1 I2 IH. intros [o s] (a & c' & b & E & F & S & M & C' & A) L1 L2. cbn [fst snd] in *. symmetry in E.
        destruct (app_split pre a (rev rv ++ c :: r) (s ++ c' :: b) E) as (t & -> & T); [unfold zlen in *; lia|].
        rewrite zlen_app in F. assert (Lt : zlen t <= zlen rv) by lia.
        destruct (app_split t (rev rv) (s ++ c' :: b) (c :: r) T) as (w & W1 & W2); [unfold zlen in *; rewrite rev_length; lia|].
        destruct t as [|z t _] using rev_ind.
        - cbn in W1. subst w. apply run_eq with (gd := gd) in W2; auto. subst s. rewrite zl_rev in M. split; [f_equal; rewrite F; cbn; lia | exact M].
        - exfalso. destruct A as [A | (a' & d & A & D)]; [destruct pre; [destruct t; discriminate A | discriminate A]|].
          rewrite app_assoc in A. apply app_inj_tail in A. destruct A as (_ & <-).
          rewrite W1 in Gr. rewrite Forall_forall in Gr. specialize (Gr z). rewrite !in_app_iff in Gr. rewrite Gr in D; [discriminate|]. left. right. left. reflexivity. }
      assert (Y : min <= zlen rv -> found gd min base (pre ++ rev rv ++ c :: r) (base + zlen pre, rev rv)).
      { intros M. exists pre, c, r. cbn [fst snd]. rewrite zl_rev. auto 8. }
      pose proof (zlen_nonneg _ rv) as Zr.
      split.
      * intros x. rewrite in_app_iff, I1. split.
        -- intros [H | (H & L)]; [|split; [exact H | lia]]. destruct (min <=? zlen rv) eqn:M; [|destruct H]. destruct H as [<- | []].
           replace (base + zlen pre + zlen rv - zlen rv) with (base + zlen pre) by lia. split; [apply Y; lia | cbn; lia].
        -- intros (H & L). destruct (Z_lt_le_dec (fst x) (base + (zlen pre + zlen rv + 1))) as [Q|Q]; [|right; split; [exact H | lia]].
           left. destruct (K x H L Q) as (-> & M). replace (min <=? zlen rv) with true by lia. left. f_equal. lia.
      * destruct (min <=? zlen rv); [|exact I2]. cbn [app]. constructor; [exact I2|]. rewrite Forall_forall. intros y Hy. apply I1 in Hy. cbn. lia.
Qed.
Lemma scan_whole (gd : Z -> bool) min base l : prints gd min base l (scan gd min base [] l).
Proof.
  destruct (scan_prints gd min base l [] [] ltac:(constructor) ltac:(auto)) as (A & B). rewrite zlen_nil, !Z.add_0_r in *. cbn [rev app] in A. split; [|exact B].
  intros x. rewrite A. split; [tauto|]. intros H. split; [exact H|]. destruct H as (a & _ & _ & _ & -> & _). pose proof (zlen_nonneg _ a). lia.
Qed.
Lemma scan_texts (gd : Z -> bool) min : forall l o o' rv, map snd (scan gd min o rv l) = map snd (scan gd min o' rv l).
Proof. induction l as [|c r IH]; intros o o' rv; cbn; [reflexivity|]. destruct (gd c); [apply IH|]. rewrite !map_app. f_equal; [destruct (_ <=? _); reflexivity | apply IH]. Qed.
Lemma scan_app (gd : Z -> bool) min : forall l o rv, zlen rv + zlen l <= min -> scan gd min o rv l = [].
Proof.
  induction l as [|c r IH]; intros o rv H; cbn; [reflexivity|]. rewrite zlen_cons in H. pose proof (zlen_nonneg _ r). pose proof (zlen_nonneg _ rv). destruct (gd c); [apply IH; rewrite zlen_cons; lia|].
  replace (min <=? zlen rv) with false by lia. apply IH. rewrite zlen_nil. lia.
Qed.
Lemma scan_short (gd : Z -> bool) min c X : gd c = false -> forall t o rv, zlen rv + zlen t < min -> map snd (scan gd min o rv (t ++ c :: X)) = map snd (scan gd min 0 [] X).
Proof.
  intros C. induction t as [|d t IH]; intros o rv H; cbn [app scan].
  - rewrite C. rewrite zlen_nil in H. replace (min <=? zlen rv) with false by lia. apply scan_texts.
  - rewrite zlen_cons in H. pose proof (zlen_nonneg _ t). pose proof (zlen_nonneg _ rv). destruct (gd d).
    + apply IH. rewrite zlen_cons. lia.
    + replace (min <=? zlen rv) with false by lia. apply IH. rewrite zlen_nil. lia.
Qed.

(* One chunk with nothing before it: the offsets too *)
Lemma loop_scan (gd : Z -> bool) min to : forall l rv out, exists rv',
  chunk_loop gd min to l rv (zlen rv) None out = (out ++ scan gd min (to - zlen l) rv l, rv', zlen rv', None) /\ exists a, rev rv ++ l = a ++ rev rv' /\ (Forall (fun c => gd c = true) rv -> Forall (fun c => gd c = true) rv').
Proof.
  induction l as [|c r IH]; intros rv out; cbn [chunk_loop scan].
  - exists rv. rewrite app_nil_r. split; [reflexivity|]. exists []. rewrite app_nil_r. auto.
  - rewrite zlen_cons. destruct (gd c) eqn:C.
    + destruct (IH (c :: rv) out) as (rv' & E & a & A & G). rewrite zlen_cons in E. exists rv'. rewrite (Z.add_comm (zlen rv) 1), E.
      replace (to - (1 + zlen r) + 1) with (to - zlen r) by lia. split; [reflexivity|]. exists a. cbn [rev] in A. rewrite <- app_assoc in A. split; [exact A|]. intros F. apply G. constructor; auto.
    + replace (to - (1 + zlen r) + 1) with (to - zlen r) by lia. destruct (min <=? zlen rv) eqn:M; cbn [app].
      all: destruct (1 + zlen r <=? min) eqn:B.
      all: try (rewrite (scan_app gd min r) by (rewrite zlen_nil; lia); exists []; cbn [app]; rewrite ?app_nil_r; split; [reflexivity|]; exists (rev rv ++ c :: r); split; [cbn; rewrite app_nil_r; reflexivity | constructor]).
      * edestruct (IH []) as (rv' & E & a & A & G). rewrite zlen_nil in E. exists rv'. rewrite E, <- app_assoc. split; [reflexivity|]. exists (rev rv ++ c :: a). cbn in A. rewrite A, <- app_assoc. split; [reflexivity|]. intros _. apply G. constructor.
      * edestruct (IH []) as (rv' & E & a & A & G). rewrite zlen_nil in E. exists rv'. rewrite E. split; [reflexivity|]. exists (rev rv ++ c :: a). cbn in A. rewrite A, <- app_assoc. split; [reflexivity|]. intros _. apply G. constructor.
Qed.
Lemma chunk_one (gd : Z -> bool) min to l : exists un, process_chunk gd min to l None = Cok (scan gd min (to - zlen l) [] l) un /\
  (forall u, un = Some u -> u <> [] /\ Forall (fun c => gd c = true) u /\ exists a, l = a ++ u).
Proof.
  unfold process_chunk. destruct (loop_scan gd min to l [] []) as (rv & E & a & A & G). rewrite zlen_nil in E. rewrite E. cbn [app].
  destruct (zlen rv =? 0) eqn:Z0; [eexists; split; [reflexivity | discriminate]|]. rewrite Z.ltb_irrefl. eexists; split; [reflexivity|].
  assert (S : zsub (rev rv) 0 (zlen rv) = rev rv). { unfold zsub, zlen. cbn. rewrite Nat2Z.id, <- rev_length. apply firstn_all. }
  intros u U. injection U as <-. rewrite S. split; [|split; [apply Forall_rev, G; constructor | exists a; exact A]].
  intros N. apply (f_equal zlen) in N. rewrite zl_rev, zlen_nil in N. lia.
Qed.

(* A chunk after which others follow *)
Lemma loop_more (gd : Z -> bool) min to : forall l rv un out out' rv' cur' un', (forall u, un = Some u -> min <= zlen u) ->
  chunk_loop gd min to l rv (zlen (ot un) + zlen rv) un out = (out', rv', cur', un') ->
  (cur' = zlen (ot un') + zlen rv' /\ (forall rest, map snd out ++ map snd (scan gd min 0 (rv ++ rev (ot un)) (l ++ rest)) = map snd out' ++ map snd (scan gd min 0 (rv' ++ rev (ot un')) rest)) /\
     ((un' = un /\ rv' = rev l ++ rv /\ Forall (fun c => gd c = true) l) \/ (un' = None /\ min <= zlen rv'))) \/
  (rv' = [] /\ cur' = 0 /\ un' = None /\ exists l1 c r, l = l1 ++ c :: r /\ zlen (c :: r) <= min /\ gd c = false /\
     forall rest, map snd out ++ map snd (scan gd min 0 (rv ++ rev (ot un)) (l ++ rest)) = map snd out' ++ map snd (scan gd min 0 [] (r ++ rest))).
Proof.
  induction l as [|c r IH]; intros rv un out out' rv' cur' un' U E; cbn [chunk_loop] in E.
  - injection E as <- <- <- <-. left. split; [reflexivity|]. split; [reflexivity|]. left. auto.
  - destruct (gd c) eqn:C.
    + replace (zlen (ot un) + zlen rv + 1) with (zlen (ot un) + zlen (c :: rv)) in E by (rewrite zlen_cons; lia).
      destruct (IH _ _ _ _ _ _ _ U E) as [(A & B & D) | (A & B & D & l1 & d & r1 & F & G & H & J)].
      * left. split; [exact A|]. split.
        -- intros rest. rewrite <- (B rest). cbn [app scan]. rewrite C. f_equal. apply scan_texts.
        -- destruct D as [(D1 & D2 & D3) | D]; [left | right; exact D]. split; [exact D1|]. split; [rewrite D2; cbn; rewrite <- app_assoc; reflexivity | constructor; auto].
      * right. repeat (split; [assumption|]). exists (c :: l1), d, r1. split; [rewrite F; reflexivity|]. split; [exact G|]. split; [exact H|].
        intros rest. rewrite <- (J rest). cbn [app scan]. rewrite C. f_equal. apply scan_texts.
    + change (match un with Some u => u | None => [] end) with (ot un) in E.
      match type of E with (let '(_, _) := ?q in _) = _ => set (p := q) in E end.
      assert (HU : snd p = None). { unfold p. destruct (min <=? _) eqn:M; [reflexivity|]. destruct un as [u|]; [|reflexivity]. specialize (U u eq_refl). cbn [ot] in M. pose proof (zlen_nonneg _ rv). lia. }
      assert (HO : forall X o, map snd out ++ map snd (scan gd min o (rv ++ rev (ot un)) (c :: X)) = map snd (fst p) ++ map snd (scan gd min 0 [] X)).
      { intros X o. cbn [scan]. rewrite C. rewrite zlen_app, zl_rev. unfold p. rewrite (Z.add_comm (zlen rv)). destruct (min <=? _); cbn [fst].
        - rewrite !map_app. cbn [map snd]. rewrite rev_app_distr, rev_involutive, <- app_assoc. do 2 f_equal. apply scan_texts.
        - cbn [app]. f_equal. apply scan_texts. }
      destruct p as [o2 u2]. cbn [fst snd] in *. subst u2.
      destruct (zlen (c :: r) <=? min) eqn:B.
      * injection E as <- <- <- <-. right. repeat (split; [reflexivity|]). exists [], c, r. split; [reflexivity|]. split; [lia|]. split; [exact C|]. intros rest. apply (HO (r ++ rest)).
      * change 0 with (zlen (ot None) + zlen (@nil Z)) in E. rewrite zlen_cons in B.
        destruct (IH [] None o2 _ _ _ _ ltac:(discriminate) E) as [(A & K & D) | (A & K & D & l1 & d & r1 & F & G & H & J)].
        -- left. split; [exact A|]. split; [intros rest; rewrite <- (K rest); apply (HO (r ++ rest))|]. right.
           destruct D as [(D1 & D2 & _) | D]; [|exact D]. split; [exact D1|]. rewrite D2, app_nil_r. unfold zlen in *. rewrite rev_length. lia.
        -- right. repeat (split; [assumption|]). exists (c :: l1), d, r1. split; [rewrite F; reflexivity|]. split; [exact G|]. split; [exact H|].
           intros rest. rewrite <- (J rest). apply (HO (r ++ rest)).
Qed.
Lemma suffix_at (a s : bytes) k : zlen s = k -> zsub (a ++ s) (zlen (a ++ s) - k) k = s.
Proof.
  intros <-. rewrite zlen_app. replace (zlen a + zlen s - zlen s) with (zlen a) by lia. unfold zsub, zlen. rewrite !Nat2Z.id, skipn_app, skipn_all, Nat.sub_diag. cbn. apply firstn_all.
Qed.
Lemma chunk_more (gd : Z -> bool) min to b un : 1 <= min -> min <= zlen b -> (forall u, un = Some u -> min <= zlen u) ->
  match process_chunk gd min to b un with
  | Cub => Forall (fun c => gd c = true) b
  | Cok o un' => (forall u, un' = Some u -> min <= zlen u) /\
      let keep := match un' with Some _ => 0 | None => min end in
      let tr := zsub b (zlen b - keep) keep in (un' <> None -> tr = []) /\ zlen tr <= min /\
      forall rest, map snd (scan gd min 0 (rev (ot un)) (b ++ rest)) = map snd o ++ map snd (scan gd min 0 (rev (ot un')) (tr ++ rest))
  end.
Proof.
  intros M1 M2 U. unfold process_chunk. destruct (chunk_loop gd min to b [] _ un []) as (((out, rv), cur), un1) eqn:E.
  assert (E' : chunk_loop gd min to b [] (zlen (ot un) + zlen (@nil Z)) un [] = (out, rv, cur, un1)).
  { rewrite <- E. f_equal. destruct un as [u|]; cbn [ot]; rewrite ?zlen_nil; unfold bytes; lia. }
  clear E. rename E' into E.
  destruct (loop_more _ _ _ _ _ _ _ _ _ _ _ U E) as [(A & B & D) | (-> & -> & -> & l1 & c & r & F & G & H & J)].
  - assert (R : min <= zlen rv). { destruct D as [(_ & -> & _) | (_ & D)]; [|exact D]. rewrite app_nil_r, zl_rev. exact M2. }
    pose proof (zlen_nonneg _ (ot un1)) as N. replace (cur =? 0) with false by lia. destruct (zlen rv <? cur) eqn:L.
    + destruct D as [(_ & _ & D) | (-> & _)]; [exact D|]. cbn [ot] in A. rewrite zlen_nil in A. lia.
    + assert (O1 : ot un1 = []). { destruct (ot un1); [reflexivity|]. rewrite zlen_cons in A. match goal with x : bytes |- _ => idtac | _ => idtac end. unfold zlen in *. lia. }
      assert (S : zsub (rev rv) 0 cur = rev rv). { rewrite A, O1, zlen_nil. unfold zsub, zlen. cbn. rewrite Nat2Z.id, <- rev_length. apply firstn_all. }
      rewrite S. cbv zeta. rewrite Z.sub_0_r. assert (S0 : zsub b (zlen b) 0 = []) by reflexivity. rewrite S0.
      split; [intros u Q; injection Q as <-; rewrite zl_rev; exact R|]. split; [reflexivity|]. split; [rewrite zlen_nil; lia|].
      intros rest. specialize (B rest). cbn [app map] in B. rewrite B, O1. cbn [ot rev app]. rewrite rev_involutive, app_nil_r. reflexivity.
  - cbn [Z.eqb]. cbv zeta. split; [discriminate|]. split; [congruence|].
    pose proof (zlen_nonneg _ l1) as N1.
    assert (Q : exists t0 t1, l1 = t0 ++ t1 /\ zlen t1 = min - zlen (c :: r)).
    { exists (firstn (Z.to_nat (zlen b - min)) l1), (skipn (Z.to_nat (zlen b - min)) l1). split; [symmetry; apply firstn_skipn|].
      rewrite F, zlen_app. rewrite F, zlen_app in M2. unfold zlen in *. rewrite skipn_length. lia. }
    destruct Q as (t0 & t1 & -> & T1). rewrite <- app_assoc in F.
    assert (S : zsub b (zlen b - min) min = t1 ++ c :: r). { rewrite F. apply suffix_at. rewrite zlen_app. lia. }
    rewrite S. split; [rewrite zlen_app; lia|]. intros rest. specialize (J rest). cbn [app map ot rev] in J. rewrite J. cbn [ot rev]. f_equal.
    rewrite <- app_assoc. cbn [app]. symmetry. apply scan_short; [exact H|]. rewrite zlen_nil. rewrite zlen_cons in T1. pose proof (zlen_nonneg _ r). lia.
Qed.
Lemma no_mmap_ok (gd : Z -> bool) min : 1 <= min -> forall reads from tr un out, (forall u, un = Some u -> min <= zlen u) -> (un <> None -> tr = []) -> zlen tr <= min -> Forall (fun n => min <= zlen n) reads ->
  match no_mmap gd min from reads tr un out with
  | Ok o => map snd o = map snd out ++ map snd (scan gd min 0 (rev (ot un)) (tr ++ concat reads))
  | _ => exists n, In n reads /\ Forall (fun c => gd c = true) n
  end.
Proof.
  intros M. induction reads as [|n rs IH]; intros from tr un out U T L N; cbn [no_mmap concat].
  - rewrite app_nil_r. replace (scan gd min 0 (rev (ot un)) tr) with (@nil line); [symmetry; apply app_nil_r|].
    destruct un as [u|]; [rewrite T by congruence; reflexivity|]. symmetry. apply scan_app. unfold zlen in *; cbn [length ot rev]; lia.
  - apply Forall_cons_iff in N. destruct N as (Nn & N). destruct n as [|z n]; [rewrite zlen_nil in Nn; lia|]. set (w := z :: n) in *.
    replace (min <=? zlen (tr ++ w)) with true by (rewrite zlen_app; pose proof (zlen_nonneg _ tr); lia).
    pose proof (chunk_more gd min (from + zlen (tr ++ w)) (tr ++ w) un M ltac:(rewrite zlen_app; pose proof (zlen_nonneg _ tr); lia) U) as K. destruct (process_chunk _ _ _ _ _) as [o un'|].
    + cbv zeta in K. destruct K as (K1 & K2 & K3 & K4).
      set (keep := match un' with Some _ => 0 | None => min end) in *.
      specialize (IH (from + zlen (tr ++ w)) _ un' (out ++ o) K1 K2 K3 N). destruct (no_mmap _ _ _ _ _ _ _).
      1: rewrite IH, map_app, <- app_assoc; f_equal; rewrite (app_assoc tr w); symmetry; apply K4.
      all: destruct IH as (x & X & Y); exists x; split; [right; exact X | exact Y].
    + exists w. split; [left; reflexivity|]. apply Forall_app in K. apply K.
Qed.

(* Characters of 2 and of 4 bytes *)
Lemma step_off (gd : Z -> bool) bpc big c r : gd 0 = false -> bpc = 2 \/ bpc = 4 -> bytes_ok (c :: r) -> bpc <= zlen r ->
  (wide bpc big (c :: r) <=? 255) && gd (wide bpc big (c :: r)) = true -> (wide bpc big r <=? 255) && gd (wide bpc big r) = false.
Proof.
  intros G0 B O L H. apply andb_true_iff in H. destruct H as (H1 & H2). apply Z.leb_le in H1.
  apply andb_false_iff. destruct (wide bpc big r <=? 255) eqn:W; [|left; reflexivity]. right. apply Z.leb_le in W.
  destruct B as [-> | ->]; unfold zlen in L.
  - destruct r as [|c1 [|c2 r]]; cbn [length] in L; try lia. unfold bytes_ok in O. repeat (apply Forall_cons_iff in O; destruct O as (? & O)).
    unfold is_u8 in *. destruct big.
    + change (wide 2 true (c :: c1 :: c2 :: r)) with (c1 + 256 * (c + 256 * 0)) in *; change (wide 2 true (c1 :: c2 :: r)) with (c2 + 256 * (c1 + 256 * 0)) in *. exfalso. assert (c = 0) by lia. subst c. assert (c1 = 0) by lia. subst c1. cbn in H2. rewrite G0 in H2. discriminate.
    + change (wide 2 false (c :: c1 :: c2 :: r)) with (c + 256 * (c1 + 256 * 0)) in *; change (wide 2 false (c1 :: c2 :: r)) with (c1 + 256 * (c2 + 256 * 0)) in *. assert (c1 = 0) by lia. assert (c2 = 0) by lia. subst. exact G0.
  - destruct r as [|c1 [|c2 [|c3 [|c4 r]]]]; cbn [length] in L; try lia. unfold bytes_ok in O. repeat (apply Forall_cons_iff in O; destruct O as (? & O)).
    unfold is_u8 in *. destruct big.
    + change (wide 4 true (c :: c1 :: c2 :: c3 :: c4 :: r)) with (c3 + 256 * (c2 + 256 * (c1 + 256 * (c + 256 * 0)))) in *; change (wide 4 true (c1 :: c2 :: c3 :: c4 :: r)) with (c4 + 256 * (c3 + 256 * (c2 + 256 * (c1 + 256 * 0)))) in *. exfalso. assert (c = 0) by lia. assert (c1 = 0) by lia. assert (c2 = 0) by lia. subst. assert (c3 = 0) by lia. subst. cbn in H2. rewrite G0 in H2. discriminate.
    + change (wide 4 false (c :: c1 :: c2 :: c3 :: c4 :: r)) with (c + 256 * (c1 + 256 * (c2 + 256 * (c3 + 256 * 0)))) in *; change (wide 4 false (c1 :: c2 :: c3 :: c4 :: r)) with (c1 + 256 * (c2 + 256 * (c3 + 256 * (c4 + 256 * 0)))) in *. assert (c1 = 0) by lia. assert (c2 = 0) by lia. assert (c3 = 0) by lia. assert (c4 = 0) by lia. subst. exact G0.
Qed.
Lemma mb_none (gd : Z -> bool) bpc big min to : gd 0 = false -> bpc = 2 \/ bpc = 4 -> 2 <= min -> forall l rv cur, bytes_ok l ->
  (cur = 0 \/ (cur = 1 /\ (bpc <= zlen l -> (wide bpc big l <=? 255) && gd (wide bpc big l) = false))) ->
  fst (fst (fst (mb_loop gd bpc big min to l rv cur None []))) = [].
Proof.
  intros G0 B M. induction l as [|c r IH]; intros rv cur O K; [reflexivity|]. cbn [mb_loop].
  destruct (zlen (c :: r) <? bpc) eqn:L; [reflexivity|].
  assert (Or : bytes_ok r) by (apply Forall_cons_iff in O; apply O).
  destruct ((wide bpc big (c :: r) <=? 255) && gd (wide bpc big (c :: r))) eqn:W.
  - destruct K as [-> | (-> & K)]; [|specialize (K ltac:(lia)); discriminate K]. apply IH; [exact Or|]. right. split; [reflexivity|]. intros L2. eapply step_off; eauto.
  - replace (min <=? cur) with false by lia. destruct (zlen (c :: r) <=? min); [reflexivity|]. apply IH; [exact Or | left; reflexivity].
Qed.

(* Sections *)
Definition wanted (s : strsec) : bool := negb (ss_nobits s) && ss_alloc s.
Definition inside (file : bytes) (s : strsec) : bool := (ss_off s <=? zlen file) && (ss_size s <=? zlen file - ss_off s).
Lemma elf_ok (gd : Z -> bool) min file : min < zlen file -> zlen file <= MMAP_MAX -> forall secs map out st,
  Forall (fun s => 0 <= ss_off s /\ 0 <= ss_size s) secs ->
  StronglySorted (fun a b => ss_off a <= ss_off b) (filter (fun s => wanted s && inside file s) secs) ->
  match map with None => True | Some (off, size) => 0 <= off /\ size = zlen file /\ Forall (fun s => off <= ss_off s) (filter (fun s => wanted s && inside file s) secs) end ->
  exists outs, read_elf gd min file map secs out st = Eout (out ++ concat outs) (if existsb (fun s => wanted s && negb (inside file s)) secs then 1 else st) /\
    Forall2 (fun s o => prints gd min (ss_off s) (zsub file (ss_off s) (ss_size s)) o) (filter (fun s => wanted s && inside file s) secs) outs.
Proof.
  intros M X. induction secs as [|s r IH]; intros map out st P S K; cbn [read_elf filter existsb].
  - exists []. cbn. rewrite app_nil_r. split; [reflexivity | constructor].
  - apply Forall_cons_iff in P. destruct P as ((P1 & P2) & P). cbn [filter] in S, K. unfold wanted at 1 in S. unfold wanted at 1 2. fold (wanted s) in *.
    change (negb (ss_nobits s) && ss_alloc s) with (wanted s) in *. destruct (wanted s) eqn:W; cbn [andb orb] in *.
    2: { apply IH; auto. }
    destruct (inside file s) eqn:I; cbn [negb orb] in *.
    + unfold inside in I. apply andb_true_iff in I. destruct I as (I1 & I2). replace ((zlen file <? ss_off s) || (zlen file - ss_off s <? ss_size s)) with false by lia.
      apply StronglySorted_inv in S. destruct S as (S1 & S2).
      assert (R : exists off, 0 <= off <= ss_off s /\ read_block gd min file map (ss_off s) (ss_off s + ss_size s) = Bout (scan gd min (ss_off s) [] (zsub file (ss_off s) (ss_size s))) (off, zlen file)).
      { assert (Hm : exists off, 0 <= off <= ss_off s /\ match map with Some m => m | None => (ss_off s - ss_off s mod PS, Z.min MMAP_MAX (zlen file)) end = (off, zlen file)).
        { destruct map as [(off, size)|].
          - destruct K as (K1 & -> & K). apply Forall_cons_iff in K. exists off. split; [lia | reflexivity].
          - exists (ss_off s - ss_off s mod PS). unfold PS. split; [lia | f_equal; lia]. }
        destruct Hm as (off & O & E). exists off. split; [exact O|]. unfold read_block. rewrite E. replace (min <? zlen file) with true by lia. cbn [negb].
        replace ((ss_off s + ss_size s <? off) || (off + zlen file <? ss_off s)) with false by lia.
        replace (off + zlen file <? ss_off s + ss_size s) with false by lia. replace (off <=? ss_off s) with true by lia. cbn [andb].
        replace (ss_off s + ss_size s - ss_off s) with (ss_size s) by lia.
        assert (Zl : zlen (zsub file (ss_off s) (ss_size s)) = ss_size s). { unfold zsub, zlen in *. rewrite firstn_length, skipn_length. lia. }
        destruct (ss_off s <? off + zlen file) eqn:Q.
        - destruct (chunk_one gd min (ss_off s + ss_size s) (zsub file (ss_off s) (ss_size s))) as (un & C & _). rewrite C, Zl. do 2 f_equal. lia.
        - assert (E0 : zsub file (ss_off s) (ss_size s) = []). { destruct (zsub file (ss_off s) (ss_size s)); [reflexivity|]. rewrite zlen_cons in Zl. exfalso. match goal with H : _ |- _ => idtac end. pose proof (zlen_nonneg _ l). lia. }
          rewrite E0. reflexivity. }
      destruct R as (off & O & R). rewrite R.
      destruct (IH (Some (off, zlen file)) (out ++ scan gd min (ss_off s) [] (zsub file (ss_off s) (ss_size s))) st P S1) as (outs & E & F).
      { split; [lia|]. split; [reflexivity|]. eapply Forall_impl; [|exact S2]. cbn. intros. lia. }
      exists (scan gd min (ss_off s) [] (zsub file (ss_off s) (ss_size s)) :: outs). split; [rewrite E; cbn [concat]; rewrite <- app_assoc; reflexivity|]. constructor; [apply scan_whole | exact F].
    + replace ((zlen file <? ss_off s) || (zlen file - ss_off s <? ss_size s)) with true by (unfold inside in I; lia).
      destruct (IH map out 1 P S K) as (outs & E & F). exists outs. split; [rewrite E; destruct (existsb _ r); reflexivity | exact F].
Qed.
