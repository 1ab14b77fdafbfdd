(* Proofs about the units of a module. *)
From Verif Require Import Base LazyModel LazySpec.

(* ---- the search for a run ---- *)
Section search.
Variables (l : list larange) (tail : larange) (addr : Z).

Definition hit (i : Z) : Prop :=
  exists a, znth l i = Some a /\ g_addr a <= addr /\
  (g_addr a = addr \/ (exists b, znth l (i + 1) = Some b /\ addr < g_addr b) \/ (i + 1 = zlen l /\ addr <= u64 (g_addr tail + g_len tail))).
Definition miss : Prop := (forall a, znth l 0 = Some a -> addr < g_addr a) \/ u64 (g_addr tail + g_len tail) < addr.

Lemma search_ok : forall k lo hi, 0 <= lo <= hi -> hi <= zlen l -> hi - lo < Z.of_nat k ->
  (0 < lo -> lo < zlen l /\ exists a, znth l lo = Some a /\ g_addr a <= addr) -> (hi < zlen l -> exists a, znth l hi = Some a /\ addr < g_addr a) ->
  match run_search k l tail addr lo hi with Ok (Some i) => hit i | Ok None => miss | _ => False end.
Proof.
  intros k. induction k as [|k IH]; intros lo hi B H L IL IU; [lia|]. cbn [run_search]. destruct (lo <? hi) eqn:C.
  - apply Z.ltb_lt in C. set (idx := (lo + hi) / 2). assert (BI : lo <= idx < hi) by (unfold idx; lia). cbv zeta.
    destruct (znth_in _ l idx ltac:(lia)) as [a EA]. rewrite EA. destruct (addr <? g_addr a) eqn:C1.
    + apply Z.ltb_lt in C1. apply IH; [lia|lia|lia|exact IL|]. intros _. eauto.
    + apply Z.ltb_ge in C1. destruct (g_addr a <? addr) eqn:C2.
      * destruct (idx + 1 <? zlen l) eqn:C3.
        -- apply Z.ltb_lt in C3. destruct (znth_in _ l (idx + 1) ltac:(lia)) as [b EB]. rewrite EB. destruct (g_addr b <=? addr) eqn:C4.
           ++ apply Z.leb_le in C4. apply IH; [lia|lia|lia|intros _; split; [lia|eauto]|exact IU].
           ++ apply Z.leb_gt in C4. exists a. split; [exact EA|]. split; [exact C1|]. right. left. eauto.
        -- apply Z.ltb_ge in C3. destruct (u64 (g_addr tail + g_len tail) <? addr) eqn:C4.
           ++ right. lia.
           ++ exists a. split; [exact EA|]. split; [exact C1|]. right. right. lia.
      * exists a. split; [exact EA|]. split; [exact C1|]. left. lia.
  - apply Z.ltb_ge in C. assert (lo = hi) by lia. subst hi. left. intros a EA.
    destruct (Z.eq_dec lo 0) as [->|N].
    + destruct (Z.eq_dec (zlen l) 0) as [Z0|Z0].
      * exfalso. apply znth_Some in EA. lia.
      * destruct (IU ltac:(lia)) as (b & EB & LB). congruence.
    + exfalso. destruct (IL ltac:(lia)) as (LL & x & EX & LX). destruct (IU LL) as (y & EY & LY). rewrite EX in EY. injection EY as <-. lia.
Qed.
End search.

(* ---- runs ---- *)
Lemma runs_in : forall l c a, In a (runs c l) -> In a l.
Proof. intros l. induction l as [|x l IH]; intros c a H; [destruct H|]. cbn [runs] in H. destruct (match c with Some c0 => negb (g_off x =? c0) | None => true end); [destruct H as [->|H]; [left; reflexivity|right; exact (IH _ _ H)]|right; exact (IH _ _ H)]. Qed.

(* the run that a range belongs to: what comes later lies after the range *)
Lemma run_at : forall x c a y, (c = Some (g_off a) /\ Forall (fun z => g_off z = g_off a) x /\ exists r, runs c (x ++ a :: y) = r /\ Forall (fun z => In z y) r) \/
  exists r1 h r2, runs c (x ++ a :: y) = r1 ++ h :: r2 /\ g_off h = g_off a /\ In h (x ++ [a]) /\ Forall (fun z => In z (x ++ [a])) r1 /\ Forall (fun z => In z y) r2.
Proof.
  intros x. induction x as [|b x IH]; intros c a y.
  - cbn [app runs]. destruct (match c with Some c0 => negb (g_off a =? c0) | None => true end) eqn:E.
    + right. exists [], a, (runs (Some (g_off a)) y). split; [reflexivity|]. split; [reflexivity|]. split; [left; reflexivity|]. split; [constructor|]. apply Forall_forall. intros z. apply runs_in.
    + left. destruct c as [c|]; [|discriminate E]. split; [f_equal; lia|]. split; [constructor|]. eexists. split; [reflexivity|]. apply Forall_forall. intros z. apply runs_in.
  - cbn [app runs]. destruct (match c with Some c0 => negb (g_off b =? c0) | None => true end) eqn:E.
    + right. destruct (IH (Some (g_off b)) a y) as [(C & F0 & r & R & FR)|(r1 & h & r2 & R & O & I & F1 & F2)].
      * exists [], b, r. rewrite R. split; [reflexivity|]. split; [congruence|]. split; [left; reflexivity|]. split; [constructor|exact FR].
      * exists (b :: r1), h, r2. rewrite R. split; [reflexivity|]. split; [exact O|]. split; [right; exact I|]. split; [|exact F2]. constructor; [left; reflexivity|]. eapply Forall_impl; [|exact F1]. intros z Z0. right. exact Z0.
    + destruct (IH c a y) as [(C & F0 & r & R & FR)|(r1 & h & r2 & R & O & I & F1 & F2)].
      * left. split; [exact C|]. split; [constructor; [subst c; lia|exact F0]|]. exists r. auto.
      * right. exists r1, h, r2. split; [exact R|]. split; [exact O|]. split; [right; exact I|]. split; [|exact F2]. eapply Forall_impl; [|exact F1]. intros z Z0. right. exact Z0.
Qed.
(* sorted *)
Definition later (l : list larange) (a b : larange) : Prop := exists x y z, l = x ++ a :: y ++ b :: z.
Lemma runs_later : forall l c i j a b, (i < j)%nat -> nth_error (runs c l) i = Some a -> nth_error (runs c l) j = Some b -> later l a b.
Proof.
  intros l. induction l as [|x l IH]; intros c i j a b L A B; [destruct i; discriminate A|]. cbn [runs] in A, B.
  assert (EXT : later l a b -> later (x :: l) a b) by (intros (p & q & r & ->); exists (x :: p), q, r; reflexivity).
  destruct (match c with Some c0 => negb (g_off x =? c0) | None => true end).
  - destruct j as [|j]; [lia|]. cbn [nth_error] in B. destruct i as [|i].
    + cbn in A. injection A as ->. apply nth_error_In, runs_in, in_split in B. destruct B as (p & q & ->). exists [], p, q. reflexivity.
    + cbn in A. apply EXT. apply (IH _ i j a b ltac:(lia) A B).
  - apply EXT. exact (IH c i j a b L A B).
Qed.

Lemma znth_nat : forall A (l : list A) i x, znth l i = Some x -> 0 <= i /\ nth_error l (Z.to_nat i) = Some x.
Proof. intros A l i x H. unfold znth in H. destruct ((0 <=? i) && (i <? zlen l)) eqn:E; [|discriminate H]. split; [lia|exact H]. Qed.

Lemma find_run_ok : forall rs, ranges_ok rs -> forall addr, match find_run rs addr with Ok (Some i) => hit (runs None rs) (last rs (Larange 0 0 0)) addr i | Ok None => miss (runs None rs) (last rs (Larange 0 0 0)) addr | _ => False end.
Proof.
  intros rs RO addr. unfold find_run. cbv zeta. pose proof (zlen_nonneg _ (runs None rs)). apply search_ok; [lia|lia|unfold zlen; lia| |]; intros X; exfalso; lia.
Qed.

Lemma last_in : forall (l : list larange) d x, In x l -> In (last l d) l.
Proof. intros l d x H. destruct l as [|a l]; [destruct H|]. clear. revert a. induction l as [|b l IH]; intros a; [left; reflexivity|]. right. change (last (a :: b :: l) d) with (last (b :: l) d). apply IH. Qed.
Lemma last_split : forall (l : list larange) d, l <> [] -> exists p, l = p ++ [last l d].
Proof. intros l d N. exists (removelast l). apply app_removelast_last. exact N. Qed.

(* an address in a range is found in the run of this range *)
Lemma covered_found : forall rs g addr, ranges_ok rs -> In g rs -> covered g addr ->
  exists i h, find_run rs addr = Ok (Some i) /\ znth (runs None rs) i = Some h /\ g_off h = g_off g.
Proof.
  intros rs g addr RO IG CV. pose proof RO as [RW RD]. pose proof (find_run_ok rs RO addr) as S.
  assert (LAT : forall a b, later rs a b -> g_addr a + g_len a <= g_addr b) by (intros a b (x & y & z & E); exact (RD _ _ _ _ _ E)).
  assert (POS : forall a, In a rs -> 0 <= g_addr a /\ 0 < g_len a /\ g_addr a + g_len a < 2 ^ 64) by (intros a I; exact (proj1 (Forall_forall _ _) RW a I)).
  destruct (in_split _ _ IG) as (x & y & E).
  destruct (run_at x None g y) as [(C & _)|(r1 & h & r2 & R & O & IH & F1 & F2)]; [discriminate C|]. rewrite <- E in R.
  assert (HB : g_addr h <= g_addr g).
  { apply in_app_or in IH. destruct IH as [IH|[<-|[]]]; [|lia]. apply in_split in IH. destruct IH as (p & q & ->). assert (later rs h g) by (exists p, q, y; rewrite E, <- app_assoc; reflexivity). pose proof (LAT _ _ H).
    assert (In h rs) by (rewrite E; apply in_or_app; left; apply in_or_app; right; left; reflexivity). pose proof (POS _ H1). lia. }
  assert (AFTER : forall z, In z r2 -> addr < g_addr z).
  { intros z Z0. pose proof (proj1 (Forall_forall _ _) F2 z Z0) as IY. apply in_split in IY. destruct IY as (p & q & ->). assert (LT : later rs g z) by (exists x, p, q; exact E). pose proof (LAT _ _ LT). unfold covered in CV. lia. }
  set (i0 := zlen r1).
  assert (H0 : nth_error (runs None rs) (length r1) = Some h) by (rewrite R, nth_error_app2, Nat.sub_diag by lia; reflexivity).
  destruct (find_run rs addr) as [[i|]|e| |]; try (destruct S; fail).
  - destruct S as (a & EA & LA & W). destruct (znth_nat _ _ _ _ EA) as [PI NA].
    assert (EQ : Z.to_nat i = length r1).
    { destruct (lt_eq_lt_dec (Z.to_nat i) (length r1)) as [[L|Q]|L]; [exfalso|exact Q|exfalso].
      - pose proof (LAT _ _ (runs_later _ _ _ _ _ _ L NA H0)) as X. assert (IA : In a rs) by (apply (runs_in rs None); exact (nth_error_In _ _ NA)). pose proof (POS _ IA). unfold covered in CV.
        destruct W as [W|[(b & EB & LB)|(W & _)]]; [lia| |].
        + destruct (znth_nat _ _ _ _ EB) as [_ NB]. destruct (Nat.eq_dec (Z.to_nat (i + 1)) (length r1)) as [Q|Q].
          * rewrite Q, H0 in NB. injection NB as ->. lia.
          * assert (L2 : (Z.to_nat (i + 1) < length r1)%nat) by lia. pose proof (LAT _ _ (runs_later _ _ _ _ _ _ L2 NB H0)). assert (IB : In b rs) by (apply (runs_in rs None); exact (nth_error_In _ _ NB)). pose proof (POS _ IB). lia.
        + rewrite R in W. rewrite zlen_app, zlen_cons in W. pose proof (zlen_nonneg _ r2). unfold zlen in W. lia.
      - rewrite R in NA. rewrite nth_error_app2 in NA by lia. destruct (Z.to_nat i - length r1)%nat as [|n] eqn:D; [lia|]. cbn [nth_error] in NA. apply nth_error_In in NA. pose proof (AFTER _ NA). lia. }
    rewrite EQ, H0 in NA. injection NA as <-. exists i, h. auto.
  - exfalso. destruct S as [S|S].
    + destruct r1 as [|w r1].
      * specialize (S h). rewrite R in S. specialize (S (znth_0 _ _ _)). unfold covered in CV. lia.
      * specialize (S w). rewrite R in S. specialize (S (znth_0 _ _ _)).
        assert (L : later rs w h). { apply (runs_later rs None 0 (length (w :: r1)) w h); [cbn; lia|rewrite R; reflexivity|exact H0]. }
        pose proof (LAT _ _ L). assert (IW : In w rs) by (apply (runs_in rs None); rewrite R; left; reflexivity). pose proof (POS _ IW). unfold covered in CV. lia.
    + assert (NE : rs <> []) by (intros Q; rewrite Q in IG; destruct IG). destruct (last_split rs (Larange 0 0 0) NE) as [p EP]. set (t := last rs (Larange 0 0 0)) in *.
      assert (IT : In t rs) by (rewrite EP; apply in_or_app; right; left; reflexivity). pose proof (POS _ IT). unfold u64 in S. rewrite Z.mod_small in S by lia.
      assert (GT : g = t \/ later rs g t).
      { rewrite EP in IG. apply in_app_or in IG. destruct IG as [IG|[IG|[]]]; [right|left; symmetry; exact IG]. apply in_split in IG. destruct IG as (p1 & p2 & Q). exists p1, p2, []. rewrite EP, Q, <- app_assoc. reflexivity. }
      unfold covered in CV. destruct GT as [->|L]; [lia|]. pose proof (LAT _ _ L). lia.
Qed.

(* ---- the units ---- *)
Section units.
Variables (units : list lunit) (size : Z) (ranges : list larange).
Hypothesis CH : chain size 0 units.
Hypothesis RG : Forall (fun g => exists u, In u units /\ u_die u = g_off g) ranges.

Lemma chain_facts : forall l off, chain size off l -> forall u, In u l -> off <= u_start u /\ u_start u < u_die u /\ u_die u < u_end u /\ u_die u + 4 < size /\ u_end u <= size.
Proof.
  intros l. induction l as [|x l IH]; intros off C u I; [destruct I|]. destruct C as (A & B & D & E & F0 & C). destruct I as [<-|I]; [lia|]. destruct (IH _ C u I). lia.
Qed.
Lemma facts : forall u, In u units -> 0 <= u_start u /\ u_start u < u_die u /\ u_die u < u_end u /\ u_die u + 4 < size /\ u_end u <= size.
Proof. exact (chain_facts units 0 CH). Qed.

Lemma chain_find : forall l off, chain size off l -> forall u d, In u l -> u_start u <= d < u_end u -> find (fun u => (u_start u <=? d) && (d <? u_end u)) l = Some u.
Proof.
  intros l. induction l as [|x l IH]; intros off C u d I B; [destruct I|]. destruct C as (A & B1 & D & E & F0 & C). cbn [find]. destruct I as [<-|I].
  - replace ((u_start x <=? d) && (d <? u_end x)) with true by lia. reflexivity.
  - pose proof (chain_facts _ _ C u I). replace ((u_start x <=? d) && (d <? u_end x)) with false by lia. apply (IH _ C u d I B).
Qed.
Lemma chain_start : forall l off, chain size off l -> forall u, In u l -> find (fun v => u_start v =? u_start u) l = Some u.
Proof.
  intros l. induction l as [|x l IH]; intros off C u I; [destruct I|]. destruct C as (A & B1 & D & E & F0 & C). cbn [find]. destruct I as [<-|I].
  - rewrite Z.eqb_refl. reflexivity.
  - pose proof (chain_facts _ _ C u I). replace (u_start x =? u_start u) with false by lia. exact (IH _ C u I).
Qed.
Lemma unit_at_ok : forall u, In u units -> unit_at units (u_start u) = Some u.
Proof. intros u I. exact (chain_start units 0 CH u I). Qed.
Lemma unit_of_ok : forall u, In u units -> unit_of units size (u_die u) = Some u.
Proof.
  intros u I. pose proof (facts u I). unfold unit_of. replace (size <=? u_die u) with false by lia. apply (chain_find units 0 CH u (u_die u) I). lia.
Qed.
Lemma unit_at_none : forall off, unit_at units off = None -> forall v, In v units -> u_start v <> off.
Proof. intros off E v I X. pose proof (find_none _ _ E v I) as N. cbn in N. lia. Qed.
Lemma die_inj : forall u v, In u units -> In v units -> u_die u = u_die v -> u = v.
Proof. intros u v I J E. pose proof (unit_of_ok u I). pose proof (unit_of_ok v J). rewrite E in H. congruence. Qed.
Lemma start_inj : forall u v, In u units -> In v units -> u_start u = u_start v -> u = v.
Proof. intros u v I J E. pose proof (unit_at_ok u I). pose proof (unit_at_ok v J). rewrite E in H. congruence. Qed.

Fixpoint nulls (r : list (larange * link)) : Z := match r with [] => 0 | (_, Null) :: r => 1 + nulls r | _ :: r => nulls r end.
Definition run_ok (s : lst) (p : larange * link) : Prop := snd p = Null \/ exists j u, snd p = Obj j /\ shows s j u /\ In u units /\ u_die u = g_off (fst p).
Definition linked (s : lst) (x : link) (off : Z) : Prop := x = Null \/ exists j v, x = Obj j /\ shows s j v /\ In v units /\ u_start v = off.
Record inv (s : lst) : Prop := {
  i_obj : forall id o, nth_error (l_objs s) id = Some o -> In (o_unit o) units /\ o_die o = u_die (o_unit o) /\ lookup (l_tree s) (u_die (o_unit o)) = Some id /\ linked s (o_next o) (u_end (o_unit o));
  i_tree : forall d id, lookup (l_tree s) d = Some id -> exists o, nth_error (l_objs s) id = Some o /\ u_die (o_unit o) = d;
  i_first : linked s (l_first s) 0;
  i_runs : match l_runs s with None => l_lazy s = 1 | Some r => map fst r = runs None ranges /\ Forall (run_ok s) r /\ l_lazy s = 1 + nulls r end }.
Definition grow (s s' : lst) : Prop := forall id u, shows s id u -> shows s' id u.

Lemma linked_grow : forall s s' x off, grow s s' -> linked s x off -> linked s' x off.
Proof. intros s s' x off G [H|(j & v & A & B & C)]; [left; exact H|right; exists j, v; auto]. Qed.
Lemma run_grow : forall s s' r, grow s s' -> Forall (run_ok s) r -> Forall (run_ok s') r.
Proof. intros s s' r G. apply Forall_impl. intros p [H|(j & v & A & B & C)]; [left; exact H|right; exists j, v; auto]. Qed.
Lemma nulls_nonneg : forall r, 0 <= nulls r.
Proof. intros r. induction r as [|[a [| |]] r IH]; cbn [nulls]; lia. Qed.

Lemma start_inv : inv start.
Proof.
  constructor; cbn.
  - intros [|id] o E; discriminate E.
  - intros d id E. discriminate E.
  - left. reflexivity.
  - reflexivity.
Qed.

Lemma shows_unique : forall s i j u, inv s -> shows s i u -> shows s j u -> i = j.
Proof.
  intros s i j u I (o & A & B & _) (p & C & D & _). destruct (i_obj _ I _ _ A) as (_ & _ & X & _). destruct (i_obj _ I _ _ C) as (_ & _ & Y & _). rewrite B in X. rewrite D in Y. congruence.
Qed.

Lemma intern_ok : forall s u, inv s -> In u units -> exists id s', intern_cu units size (u_die u) s = (ROk (Obj id), s') /\ inv s' /\ shows s' id u /\ grow s s' /\ l_runs s' = l_runs s /\ l_lazy s' = l_lazy s.
Proof.
  intros s u I J. pose proof (facts u J). unfold intern_cu. replace (size <=? u_die u + 4) with false by lia. rewrite (unit_of_ok u J).
  destruct (lookup (l_tree s) (u_die u)) as [id|] eqn:L.
  - exists id, s. split; [reflexivity|]. split; [exact I|]. split; [|split; [intros ? ? X; exact X|auto]].
    destruct (i_tree _ I _ _ L) as (o & E & D). destruct (i_obj _ I _ _ E) as (IO & DO & _). exists o. split; [exact E|]. assert (o_unit o = u) by (apply die_inj; assumption). subst u. auto.
  - set (id := length (l_objs s)). set (s' := Lst (l_objs s ++ [Lcu u (u_die u) Null]) ((u_die u, id) :: l_tree s) (if u_start u =? 0 then Obj id else l_first s) (l_runs s) (l_lazy s)).
    exists id, s'. split; [reflexivity|].
    assert (SH : shows s' id u) by (exists (Lcu u (u_die u) Null); cbn [s' l_objs]; unfold id; rewrite nth_error_app2, Nat.sub_diag by lia; auto).
    assert (G : grow s s'). { intros k v (o & A & B). exists o. split; [|exact B]. cbn [s' l_objs]. rewrite nth_error_app1; [exact A|]. apply nth_error_Some. congruence. }
    split; [|auto]. constructor; cbn [s' l_objs l_tree l_first l_runs l_lazy].
    + intros k o E. destruct (Nat.lt_trichotomy k id) as [Q|[Q|Q]].
      * rewrite nth_error_app1 in E by exact Q. destruct (i_obj _ I _ _ E) as (A & B & C & D). split; [exact A|]. split; [exact B|]. split; [|exact (linked_grow _ _ _ _ G D)].
        unfold lookup. cbn [find fst]. destruct (u_die u =? u_die (o_unit o)) eqn:X; [|exact C]. apply Z.eqb_eq in X. rewrite <- X in C. congruence.
      * subst k. unfold id in E. rewrite nth_error_app2, Nat.sub_diag in E by lia. cbn in E. injection E as <-. cbn [o_unit o_die o_next]. split; [exact J|]. split; [reflexivity|]. split; [|left; reflexivity]. unfold lookup. cbn [find fst]. rewrite Z.eqb_refl. reflexivity.
      * exfalso. assert (X : nth_error (l_objs s ++ [Lcu u (u_die u) Null]) k = None) by (apply nth_error_None; rewrite app_length; cbn; unfold id in Q; lia). congruence.
    + intros d k E. unfold lookup in E. cbn [find fst] in E. destruct (u_die u =? d) eqn:X.
      * injection E as <-. cbn [snd]. exists (Lcu u (u_die u) Null). unfold id. rewrite nth_error_app2, Nat.sub_diag by lia. split; [reflexivity|]. cbn. lia.
      * destruct (i_tree _ I d k E) as (o & A & B). exists o. split; [|exact B]. rewrite nth_error_app1; [exact A|]. apply nth_error_Some. congruence.
    + destruct (u_start u =? 0) eqn:X; [|exact (linked_grow _ _ _ _ G (i_first _ I))]. right. exists id, u. split; [reflexivity|]. split; [exact SH|]. split; [exact J|lia].
    + pose proof (i_runs _ I) as R. destruct (l_runs s) as [r|]; [|exact R]. destruct R as (A & B & C). split; [exact A|]. split; [exact (run_grow _ _ _ G B)|exact C].
Qed.

Lemma nth_set_same : forall A (l : list A) n x, (n < length l)%nat -> nth_error (set_nth l n x) n = Some x.
Proof. intros A l. induction l as [|y l IH]; intros [|n] x L; cbn in *; [lia|lia|reflexivity|apply IH; lia]. Qed.
Lemma nth_set_other : forall A (l : list A) n m x, n <> m -> nth_error (set_nth l n x) m = nth_error l m.
Proof. intros A l. induction l as [|y l IH]; intros [|n] [|m] x N; cbn; try reflexivity; [congruence|apply IH; congruence]. Qed.

Lemma store_ok : forall s last j v off, inv s -> shows s j v -> In v units -> u_start v = off ->
  (match last with None => off = 0 | Some id => exists u, shows s id u /\ off = u_end u end) -> inv (store last (Obj j) s) /\ grow s (store last (Obj j) s).
Proof.
  intros s last j v off I SH IV ST L. destruct last as [id|]; cbn [store].
  - destruct L as (u & (o & E & OU & OD) & ->). rewrite E. set (s' := Lst _ _ _ _ _).
    assert (LT : (id < length (l_objs s))%nat) by (apply nth_error_Some; congruence).
    assert (G : grow s s').
    { intros k w (p & A & B & C). destruct (Nat.eq_dec id k) as [<-|N].
      - rewrite E in A. injection A as <-. exists (Lcu (o_unit o) (o_die o) (Obj j)). cbn [s' l_objs]. rewrite nth_set_same by exact LT. cbn. auto.
      - exists p. cbn [s' l_objs]. rewrite nth_set_other by exact N. auto. }
    split; [|exact G]. constructor; cbn [s' l_objs l_tree l_first l_runs l_lazy].
    + intros k p A. destruct (Nat.eq_dec id k) as [<-|N].
      * rewrite nth_set_same in A by exact LT. injection A as <-. cbn [o_unit o_die o_next]. destruct (i_obj _ I _ _ E) as (X & Y & Z0 & _). split; [exact X|]. split; [exact Y|]. split; [exact Z0|]. right. exists j, v. split; [reflexivity|]. split; [apply G; exact SH|]. split; [exact IV|congruence].
      * rewrite nth_set_other in A by exact N. destruct (i_obj _ I _ _ A) as (X & Y & Z0 & W). split; [exact X|]. split; [exact Y|]. split; [exact Z0|exact (linked_grow _ _ _ _ G W)].
    + intros d k A. destruct (i_tree _ I _ _ A) as (p & B & C). destruct (Nat.eq_dec id k) as [<-|N].
      * rewrite E in B. injection B as <-. eexists. rewrite nth_set_same by exact LT. split; [reflexivity|exact C].
      * exists p. rewrite nth_set_other by exact N. auto.
    + exact (linked_grow _ _ _ _ G (i_first _ I)).
    + pose proof (i_runs _ I) as R. destruct (l_runs s) as [r|]; [|exact R]. destruct R as (A & B & C). split; [exact A|]. split; [exact (run_grow _ _ _ G B)|exact C].
  - subst off. set (s' := Lst _ _ _ _ _). assert (G : grow s s') by (intros k w X; exact X). split; [|exact G]. constructor; cbn [s' l_objs l_tree l_first l_runs l_lazy].
    + intros k p A. destruct (i_obj _ I _ _ A) as (X & Y & Z0 & W). split; [exact X|]. split; [exact Y|]. split; [exact Z0|exact (linked_grow _ _ _ _ G W)].
    + exact (i_tree _ I).
    + right. exists j, v. auto.
    + pose proof (i_runs _ I) as R. destruct (l_runs s) as [r|]; [|exact R]. destruct R as (A & B & C). split; [exact A|]. split; [exact (run_grow _ _ _ G B)|exact C].
Qed.

Lemma first_start : forall u0 us, units = u0 :: us -> u_start u0 = 0.
Proof. intros u0 us E. pose proof CH as C. rewrite E in C. cbn [chain] in C. tauto. Qed.
Lemma first_some : forall s j v, In v units -> u_start v = 0 -> shows s j v -> answer units ranges (Next None) (ROk (Some j)) s.
Proof.
  intros s j v IV ST SH. cbn [answer].
  assert (X : forall l, l = units -> match l with [] => ROk (Some j) = ROk None | u :: _ => exists j0, ROk (Some j) = ROk (Some j0) /\ shows s j0 u end).
  { intros l E. destruct l as [|u0 us]; [rewrite <- E in IV; destruct IV|]. exists j. split; [reflexivity|]. replace u0 with v; [exact SH|].
    apply start_inj; [exact IV|rewrite <- E; left; reflexivity|]. rewrite (first_start u0 us (eq_sym E)). exact ST. }
  exact (X units eq_refl).
Qed.
Lemma first_none : forall s, (forall v, In v units -> u_start v <> 0) -> answer units ranges (Next None) (ROk None) s.
Proof.
  intros s N. cbn [answer].
  assert (X : forall l, l = units -> match l with [] => ROk (@None nat) = ROk None | u :: _ => exists j0, ROk None = ROk (Some j0) /\ shows s j0 u end).
  { intros l E. destruct l as [|u0 us]; [reflexivity|]. exfalso. apply (N u0); [rewrite <- E; left; reflexivity|exact (first_start u0 us (eq_sym E))]. }
  exact (X units eq_refl).
Qed.

(* the traversal *)
Lemma nextcu_ok : forall s last, inv s -> (match last with None => True | Some id => (id < length (l_objs s))%nat end) ->
  exists r s', nextcu units size last s = (r, s') /\ inv s' /\ grow s s' /\ answer units ranges (Next last) r s'.
Proof.
  intros s last I V. unfold nextcu.
  set (known := match last with None => _ | Some id => _ end).
  assert (K : exists off nx, known = Some (off, nx) /\ linked s nx off /\ (match last with None => off = 0 | Some id => exists u, In u units /\ shows s id u /\ off = u_end u end)).
  { unfold known. destruct last as [id|].
    - destruct (nth_error (l_objs s) id) as [o|] eqn:E; [|apply nth_error_None in E; lia]. destruct (i_obj _ I _ _ E) as (A & B & C & D). eexists; eexists. split; [reflexivity|]. split; [exact D|]. exists (o_unit o). split; [exact A|]. split; [exists o; auto|reflexivity].
    - eexists; eexists. split; [reflexivity|]. split; [exact (i_first _ I)|reflexivity]. }
  destruct K as (off & nx & -> & LK & W).
  assert (ANS : forall s' j v, grow s s' -> shows s' j v -> In v units -> u_start v = off -> answer units ranges (Next last) (ROk (Some j)) s').
  { intros s' j v G SH IV ST. destruct last as [id|].
    - cbn [answer]. destruct W as (u & IU & SU & EO). exists u. split; [exact IU|]. split; [apply G; exact SU|]. left. exists v, j. rewrite <- EO. auto.
    - apply (first_some s' j v IV); [congruence|exact SH]. }
  destruct nx as [|id|].
  - destruct (unit_at units off) as [v|] eqn:UA.
    + assert (IV : In v units /\ u_start v = off) by (apply find_some in UA; cbn in UA; split; [tauto|lia]). destruct IV as [IV ST].
      destruct (intern_ok s v I IV) as (id & s1 & E & I1 & SH & G & _). rewrite E.
      destruct (store_ok s1 last id v off I1 SH IV ST) as [I2 G2].
      { destruct last as [k|]; [|exact W]. destruct W as (u & IU & SU & X). exists u. split; [apply G; exact SU|exact X]. }
      eexists; eexists. split; [reflexivity|]. split; [exact I2|]. assert (G3 : grow s (store last (Obj id) s1)) by (intros k w X; apply G2, G; exact X). split; [exact G3|]. apply (ANS _ id v G3); [apply G2; exact SH|exact IV|exact ST].
    + eexists; eexists. split; [reflexivity|]. split; [exact I|]. split; [intros k w X; exact X|]. pose proof (unit_at_none _ UA) as N. destruct last as [id|].
      * cbn [answer]. destruct W as (u & IU & SU & ->). exists u. split; [exact IU|]. split; [exact SU|]. right. split; [exact N|reflexivity].
      * apply first_none. subst off. exact N.
  - destruct LK as [X|(j & v & X & SH & IV & ST)]; [discriminate X|]. injection X as <-. eexists; eexists. split; [reflexivity|]. split; [exact I|]. assert (G : grow s s) by (intros k w X; exact X). split; [exact G|]. exact (ANS s id v G SH IV ST).
  - exfalso. destruct LK as [X|(j & v & X & _)]; discriminate X.
Qed.

Lemma load_ok : forall s, inv s -> inv (load_runs ranges s) /\ grow s (load_runs ranges s) /\ exists r, l_runs (load_runs ranges s) = Some r.
Proof.
  intros s I. unfold load_runs. pose proof (i_runs _ I) as R. destruct (l_runs s) as [r|] eqn:E; [split; [exact I|]; split; [intros k w X; exact X|eauto]|].
  set (s' := Lst _ _ _ _ _). assert (G : grow s s') by (intros k w X; exact X). split; [|split; [exact G|eexists; reflexivity]].
  constructor; cbn [s' l_objs l_tree l_first l_runs l_lazy].
  - intros k p A. destruct (i_obj _ I _ _ A) as (X & Y & Z0 & W). split; [exact X|]. split; [exact Y|]. split; [exact Z0|exact (linked_grow _ _ _ _ G W)].
  - exact (i_tree _ I).
  - exact (linked_grow _ _ _ _ G (i_first _ I)).
  - split; [rewrite map_map; cbn [fst]; apply map_id|]. split.
    + apply Forall_forall. intros p P. apply in_map_iff in P. destruct P as (a & <- & _). left. reflexivity.
    + rewrite R. f_equal. clear. induction (runs None ranges) as [|a l IH]; [reflexivity|]. cbn [map nulls]. rewrite zlen_cons. lia.
Qed.

Lemma nulls_set : forall r i a x, nth_error r i = Some (a, Null) -> x <> Null -> nulls (set_nth r i (a, x)) = nulls r - 1.
Proof.
  intros r. induction r as [|[b y] r IH]; intros [|i] a x E N; cbn in E; try discriminate E.
  - injection E as -> ->. cbn [set_nth nulls]. destruct x; [congruence|lia|lia].
  - cbn [set_nth nulls]. rewrite (IH i a x E N). destruct y; lia.
Qed.
Lemma map_set : forall r i a x y, nth_error r i = Some (a, x) -> map fst (set_nth r i (a, y)) = map (@fst larange link) r.
Proof. intros r. induction r as [|[b z] r IH]; intros [|i] a x y E; cbn in E; try discriminate E; cbn; [injection E as -> ->; reflexivity|f_equal; exact (IH i a x y E)]. Qed.
Lemma forall_set : forall A (P : A -> Prop) l i x, Forall P l -> P x -> Forall P (set_nth l i x).
Proof. intros A P l. induction l as [|y l IH]; intros [|i] x F0 X; cbn; [constructor|constructor| |]; inversion F0; subst; constructor; auto. Qed.
Lemma nulls_pos : forall r i a, nth_error r i = Some (a, Null) -> 0 < nulls r.
Proof. intros r. induction r as [|[b y] r IH]; intros [|i] a E; cbn in E; try discriminate E; [injection E as -> ->|]; cbn [nulls]; [pose proof (nulls_nonneg r); lia|pose proof (IH i a E); destruct y; lia]. Qed.

Lemma arangecu_ok : forall s i h, inv s -> l_runs s <> None -> znth (runs None ranges) i = Some h ->
  exists u j s', arangecu units size i s = (ROk j, s') /\ inv s' /\ grow s s' /\ In u units /\ u_die u = g_off h /\ shows s' j u.
Proof.
  intros s i h I NN Z0. unfold arangecu. pose proof (i_runs _ I) as R. destruct (l_runs s) as [r|] eqn:ER; [|congruence]. destruct R as (M & F0 & LZ).
  destruct (znth_nat _ _ _ _ Z0) as [PI NE]. rewrite <- M in NE.
  destruct (nth_error r (Z.to_nat i)) as [[a x]|] eqn:E; [|apply (map_nth_error fst) in NE || (apply nth_error_None in E; exfalso; assert (X : nth_error (map fst r) (Z.to_nat i) = None) by (apply nth_error_None; rewrite map_length; exact E); congruence)].
  assert (EA : a = h) by (rewrite (map_nth_error fst _ _ E) in NE; cbn in NE; congruence). subst a.
  pose proof (proj1 (Forall_forall _ _) F0 _ (nth_error_In _ _ E)) as RO. destruct RO as [RO|(j & u & RO & SH & IU & DU)]; cbn [snd fst] in RO; subst x.
  - assert (IH : In h ranges) by (apply (runs_in ranges None); rewrite <- M; exact (nth_error_In _ _ NE)).
    destruct (proj1 (Forall_forall _ _) RG h IH) as (u & IU & DU). rewrite <- DU. destruct (intern_ok s u I IU) as (id & s1 & EI & I1 & SH & G & R1 & L1). rewrite EI.
    set (s2 := Lst (l_objs s1) (l_tree s1) (l_first s1) (Some (set_nth r (Z.to_nat i) (h, Obj id))) (l_lazy s1)).
    pose proof (nulls_pos _ _ _ E) as NP.
    assert (EL : less_lazy s2 = Lst (l_objs s1) (l_tree s1) (l_first s1) (Some (set_nth r (Z.to_nat i) (h, Obj id))) (l_lazy s1 - 1)).
    { unfold less_lazy. cbn [s2 l_lazy l_objs l_tree l_first l_runs]. replace (0 <? l_lazy s1 - 1) with true by lia. reflexivity. }
    exists u, id, (less_lazy s2). split; [reflexivity|]. rewrite EL. set (s3 := Lst _ _ _ _ _). assert (G3 : grow s1 s3) by (intros k w X; exact X).
    split; [|split; [intros k w X; apply G3, G; exact X|split; [exact IU|split; [first [reflexivity|exact DU]|apply G3; exact SH]]]].
    constructor; cbn [s3 l_objs l_tree l_first l_runs l_lazy].
    + intros k p A. destruct (i_obj _ I1 _ _ A) as (X & Y & Z1 & W). split; [exact X|]. split; [exact Y|]. split; [exact Z1|exact (linked_grow _ _ _ _ G3 W)].
    + exact (i_tree _ I1).
    + exact (linked_grow _ _ _ _ G3 (i_first _ I1)).
    + split; [rewrite (map_set _ _ _ _ _ E); exact M|]. split.
      * apply forall_set; [apply (run_grow s); [intros k w X; apply G3, G; exact X|exact F0]|]. right. exists id, u. cbn [fst snd]. split; [reflexivity|]. split; [apply G3; exact SH|auto].
      * rewrite (nulls_set _ _ _ _ E) by discriminate. lia.
  - exists u, j, s. split; [reflexivity|]. split; [exact I|]. split; [intros k w X; exact X|]. cbn [fst] in DU. auto.
Qed.

Hypothesis RO : ranges_ok ranges.
Definition valid (c : call) (s : lst) : Prop := match c with Next (Some id) => (id < length (l_objs s))%nat | _ => True end.
Lemma step_ok : forall c s, inv s -> valid c s -> exists r s', step units size ranges c s = (r, s') /\ inv s' /\ grow s s' /\ answer units ranges c r s'.
Proof.
  intros c s I V. destruct c as [last|addr]; cbn [step].
  - apply nextcu_ok; [exact I|]. destruct last; [exact V|exact Logic.I].
  - unfold addrcu. destruct (load_ok s I) as (I1 & G1 & r & ER). set (s1 := load_runs ranges s) in *. pose proof (find_run_ok ranges RO addr) as S.
    assert (CV : forall g, In g ranges -> covered g addr -> exists i h, find_run ranges addr = Ok (Some i) /\ znth (runs None ranges) i = Some h /\ g_off h = g_off g) by (intros g IG C; exact (covered_found ranges g addr RO IG C)).
    destruct (find_run ranges addr) as [[i|]|e| |]; try (destruct S; fail).
    + destruct S as (h & EH & LH & _). destruct (arangecu_ok s1 i h I1 ltac:(congruence) EH) as (u & j & s2 & E & I2 & G2 & IU & DU & SH). rewrite E.
      eexists; eexists. split; [reflexivity|]. split; [exact I2|]. split; [intros k w X; apply G2, G1; exact X|].
      assert (F0 : forall off, off = g_off h -> found_unit units off (ROk (Some j)) s2) by (intros off ->; exists u, j; auto).
      split.
      * intros g IG C. destruct (CV g IG C) as (i' & h' & X & Y & Z0). injection X as <-. rewrite EH in Y. injection Y as <-. apply F0. symmetry. exact Z0.
      * right. exists h. split; [apply (runs_in ranges None); destruct (znth_nat _ _ _ _ EH) as [_ N]; exact (nth_error_In _ _ N)|]. split; [exact LH|apply F0; reflexivity].
    + eexists; eexists. split; [reflexivity|]. split; [exact I1|]. split; [exact G1|]. split; [|left; reflexivity]. intros g IG C. destruct (CV g IG C) as (i' & h' & X & _). discriminate X.
Qed.

Lemma found_grow : forall off r s s', grow s s' -> found_unit units off r s -> found_unit units off r s'.
Proof. intros off r s s' G (u & j & A & B & C & D). exists u, j. auto. Qed.
Lemma answer_grow : forall c r s s', grow s s' -> answer units ranges c r s -> answer units ranges c r s'.
Proof.
  intros c r s s' G A. destruct c as [[id|]|a]; cbn [answer] in *.
  - destruct A as (u & IU & SU & [(v & j & X & Y & Z0 & W)|(X & Y)]); exists u; (split; [exact IU|]); (split; [apply G; exact SU|]); [left; exists v, j; auto|right; auto].
  - revert A. destruct units; [trivial|]. intros (j & X & Y). exists j. auto.
  - destruct A as [A B]. split; [intros g IG C; exact (found_grow _ _ _ _ G (A g IG C))|]. destruct B as [B|(g & X & Y & Z0)]; [left; exact B|right]. exists g. split; [exact X|]. split; [exact Y|exact (found_grow _ _ _ _ G Z0)].
Qed.
Lemma answer_id : forall c id s, answer units ranges c (ROk (Some id)) s -> (id < length (l_objs s))%nat.
Proof.
  assert (SL : forall s id u, shows s id u -> (id < length (l_objs s))%nat) by (intros s id u (o & A & _); apply nth_error_Some; congruence).
  intros c id s A. destruct c as [[k|]|a]; cbn [answer] in A.
  - destruct A as (u & _ & _ & [(v & j & _ & _ & X & Y)|(_ & X)]); [injection X as ->; exact (SL _ _ _ Y)|discriminate X].
  - revert A. destruct units; [discriminate|]. intros (j & X & Y). injection X as ->. exact (SL _ _ _ Y).
  - destruct A as [_ [X|(g & _ & _ & u & j & _ & _ & X & Y)]]; [discriminate X|]. injection X as ->. exact (SL _ _ _ Y).
Qed.

Lemma history_ok : forall cs s seen rs s', inv s -> history units size ranges cs s = (rs, s') -> Forall (fun id => (id < length (l_objs s))%nat) seen -> fair seen cs rs ->
  inv s' /\ grow s s' /\ Forall2 (fun c r => answer units ranges c r s') cs rs.
Proof.
  assert (GL : forall s s' id, inv s -> grow s s' -> (id < length (l_objs s))%nat -> (id < length (l_objs s'))%nat).
  { intros s s' id I G L. destruct (nth_error (l_objs s) id) as [o|] eqn:E; [|apply nth_error_None in E; lia]. destruct (i_obj _ I _ _ E) as (_ & D & _).
    destruct (G id (o_unit o)) as (p & P & _); [exists o; auto|]. apply nth_error_Some. congruence. }
  intros cs. induction cs as [|c cs IH]; intros s seen rs s' I E SE FR; cbn [history] in E.
  - injection E as <- <-. split; [exact I|]. split; [intros k w X; exact X|constructor].
  - destruct (step units size ranges c s) as [x s1] eqn:E1. destruct (history units size ranges cs s1) as [xs s2] eqn:E2. injection E as <- <-. cbn [fair] in FR. destruct FR as [F1 F2].
    assert (V : valid c s) by (unfold valid; destruct c as [[id|]|a]; auto; exact (proj1 (Forall_forall _ _) SE id F1)).
    destruct (step_ok c s I V) as (x' & s1' & E1' & I1 & G1 & A1). rewrite E1 in E1'. injection E1' as <- <-.
    assert (SE1 : Forall (fun id => (id < length (l_objs s1))%nat) (match x with ROk (Some id) => id :: seen | _ => seen end)).
    { assert (SE0 : Forall (fun id => (id < length (l_objs s1))%nat) seen) by (eapply Forall_impl; [|exact SE]; intros id L; exact (GL s s1 id I G1 L)).
      destruct x as [[id|]|e|]; try exact SE0. constructor; [exact (answer_id _ _ _ A1)|exact SE0]. }
    destruct (IH s1 _ xs s2 I1 E2 SE1 F2) as (I2 & G2 & A2). split; [exact I2|]. split; [intros k w X; apply G2, G1; exact X|]. constructor; [exact (answer_grow _ _ _ _ G2 A1)|exact A2].
Qed.
End units.
