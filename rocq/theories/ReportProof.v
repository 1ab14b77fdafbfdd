From Coq Require Import Permutation.
From Verif Require Import Base ReportModel ReportSpec.

Lemma key_eqb_eq : forall a b, key_eqb a b = true <-> a = b.
Proof.
  intros ((n, l), h) ((n', l'), h'). unfold key_eqb. rewrite !andb_true_iff, !Z.eqb_eq. destruct (list_eq_dec Z.eq_dec n n') as [E|E]; split.
  - intros ((-> & ->) & _). congruence.
  - intros H. injection H as _ -> ->. auto.
  - intros (_ & H). discriminate.
  - intros H. injection H as H _ _. contradiction.
Qed.
Lemma key_eqb_neq : forall a b, key_eqb a b = false <-> a <> b.
Proof. intros a b. rewrite <- key_eqb_eq. destruct (key_eqb a b); split; congruence. Qed.
Definition keys (l : list md) : list key := map d_key l.
Definition ids (l : list md) : list Z := map d_id l.

Fixpoint tailpos (l : list md) (i tail : nat) : nat := match l with [] => tail | m :: l => tailpos l (S i) (if d_gc m then tail else S i) end.
Lemma scan_ok : forall k l i tail,
  match scan k l i tail with
  | (Some (j, m), t) => exists l1 l2, l = l1 ++ m :: l2 /\ j = (i + length l1)%nat /\ ~ In k (keys l1) /\ d_key m = k /\ t = tailpos l1 i tail
  | (None, t) => ~ In k (keys l) /\ t = tailpos l i tail
  end.
Proof.
  intros k. induction l as [|m l IH]; intros i tail; cbn [scan]; [split; [auto|reflexivity]|]. destruct (key_eqb (d_key m) k) eqn:E.
  - exists [], l. split; [reflexivity|]. split; [cbn; lia|]. split; [auto|]. split; [apply key_eqb_eq; exact E|reflexivity].
  - apply key_eqb_neq in E. specialize (IH (S i) (if d_gc m then tail else S i)). destruct (scan k l (S i) (if d_gc m then tail else S i)) as ([(j, x)|], t).
    + destruct IH as (l1 & l2 & -> & -> & N & K & ->). exists (m :: l1), l2. split; [reflexivity|]. split; [cbn; lia|]. split; [intros [H|H]; [contradiction|exact (N H)]|]. split; [exact K|reflexivity].
    + destruct IH as (N & ->). split; [intros [H|H]; [contradiction|exact (N H)]|reflexivity].
Qed.
Lemma tailpos_split : forall l i tail, exists a b, l = a ++ b /\ Forall (fun m => d_gc m = true) b /\ tailpos l i tail = match a with [] => tail | _ => (i + length a)%nat end.
Proof.
  induction l as [|m l IH]; intros i tail; cbn [tailpos]; [exists [], []; auto|]. destruct (IH (S i) (if d_gc m then tail else S i)) as (a & b & -> & F & T). rewrite T. destruct a as [|x a].
  - destruct (d_gc m) eqn:G.
    + exists [], (m :: b). split; [reflexivity|]. split; [constructor; assumption|reflexivity].
    + exists [m], b. split; [reflexivity|]. split; [exact F|]. cbn. lia.
  - exists (m :: x :: a), b. split; [reflexivity|]. split; [exact F|]. cbn. lia.
Qed.
Lemma tailpos_live : forall live old i tail, Forall (fun m => d_gc m = false) live -> Forall (fun m => d_gc m = true) old -> tailpos (live ++ old) i tail = match live with [] => tail | _ => (i + length live)%nat end.
Proof.
  induction live as [|m live IH]; intros old i tail L O; cbn [app].
  - revert i tail. induction O as [|m old G O IH]; intros i tail; cbn [tailpos]; [reflexivity|]. rewrite G. apply IH.
  - apply Forall_cons_iff in L. destruct L as (G & L). cbn [tailpos]. rewrite G. rewrite (IH old (S i) (S i) L O). destruct live; cbn; lia.
Qed.
Lemma insert_app : forall a m b, insert_at (length a) m (a ++ b) = a ++ m :: b.
Proof. intros. unfold insert_at. rewrite firstn_app, firstn_all, Nat.sub_diag, firstn_O, app_nil_r, skipn_app, skipn_all, Nat.sub_diag. reflexivity. Qed.
Lemma remove_app : forall a m b, remove_at (length a) (a ++ m :: b) = a ++ b.
Proof.
  intros. unfold remove_at. rewrite firstn_app, firstn_all, Nat.sub_diag, firstn_O, app_nil_r. f_equal. rewrite skipn_app, skipn_all2 by lia. replace (S (length a) - length a)%nat with 1%nat by lia. reflexivity.
Qed.
Definition live_md (m : md) : md := Md (d_id m) (d_key m) false.
Lemma report_ok : forall k s, 
  (exists a b m l2, t_mods s = a ++ b ++ m :: l2 /\ Forall (fun m => d_gc m = true) b /\ d_key m = k /\ ~ In k (keys (a ++ b)) /\
     length a = tailpos (a ++ b) 0 0 /\ report_module k s = (St (a ++ live_md m :: b ++ l2) (t_next s) (t_freed s), d_id m)) \/
  (exists a b, t_mods s = a ++ b /\ Forall (fun m => d_gc m = true) b /\ ~ In k (keys (a ++ b)) /\
     length a = tailpos (a ++ b) 0 0 /\ report_module k s = (St (a ++ Md (t_next s) k false :: b) (t_next s + 1) (t_freed s), t_next s)).
Proof.
  intros k s. unfold report_module. pose proof (scan_ok k (t_mods s) 0 0) as H. destruct (scan k (t_mods s) 0 0) as ([(j, m)|], t).
  - left. destruct H as (l1 & l2 & E & -> & N & K & ->). cbn [Nat.add]. destruct (tailpos_split l1 0 0) as (a & b & E1 & F & T). exists a, b, m, l2. assert (L : tailpos l1 0 0 = length a) by (rewrite T; destruct a; reflexivity).
    split; [rewrite E, E1, <- app_assoc; reflexivity|]. split; [exact F|]. split; [exact K|]. rewrite <- E1. split; [exact N|]. split; [symmetry; exact L|]. rewrite E, remove_app, L, E1, <- app_assoc, insert_app. reflexivity.
  - right. destruct H as (N & ->). destruct (tailpos_split (t_mods s) 0 0) as (a & b & E1 & F & T). exists a, b. assert (L : tailpos (t_mods s) 0 0 = length a) by (rewrite T; destruct a; reflexivity).
    split; [exact E1|]. split; [exact F|]. rewrite <- E1. split; [exact N|]. split; [symmetry; exact L|]. rewrite L, E1, insert_app. reflexivity.
Qed.

(* the list has every name and every handle once, and nothing that has been freed *)
Record good (s : st) : Prop := { g_keys : NoDup (keys (t_mods s)); g_ids : NoDup (ids (t_mods s) ++ t_freed s); g_next : forall i, In i (ids (t_mods s) ++ t_freed s) -> i < t_next s }.
Lemma good_perm : forall l l' n f, Permutation (map (fun m => (d_key m, d_id m)) l) (map (fun m => (d_key m, d_id m)) l') -> good (St l n f) -> good (St l' n f).
Proof.
  intros l l' n f P [A B C]. cbn [t_mods t_freed t_next] in *.
  assert (PK : Permutation (keys l) (keys l')) by (apply (Permutation_map fst) in P; rewrite !map_map in P; exact P). assert (PI : Permutation (ids l) (ids l')) by (apply (Permutation_map snd) in P; rewrite !map_map in P; exact P).
  constructor; cbn [t_mods t_freed t_next].
  - exact (Permutation_NoDup PK A).
  - apply (Permutation_NoDup (l := ids l ++ f)); [apply Permutation_app_tail; exact PI|exact B].
  - intros i I. apply C. apply (Permutation_in (l := ids l' ++ f)); [apply Permutation_app_tail; symmetry; exact PI|exact I].
Qed.
Lemma good_report : forall k s, good s -> good (fst (report_module k s)) /\
  exists m, In m (t_mods (fst (report_module k s))) /\ d_id m = snd (report_module k s) /\ d_key m = k /\ d_gc m = false.
Proof.
  intros k s G. destruct (report_ok k s) as [(a & b & m & l2 & E & F & K & N & _ & R)|(a & b & E & F & N & _ & R)]; rewrite R; cbn [fst snd t_mods].
  - split; [|exists (live_md m); split; [apply in_or_app; right; left; reflexivity|]; auto]. destruct s as [l n f]. cbn [t_mods t_next t_freed] in *. subst l. apply (good_perm (a ++ b ++ m :: l2)); [|exact G].
    rewrite !map_app. apply Permutation_app_head. cbn [map live_md d_key d_id]. rewrite map_app. symmetry. apply Permutation_middle.
  - split; [|eexists; split; [apply in_or_app; right; left; reflexivity|]; auto]. destruct s as [l n f]. cbn [t_mods t_next t_freed] in *. subst l. apply (good_perm (Md n k false :: a ++ b)).
    + rewrite map_app. cbn [map]. rewrite map_app. apply Permutation_middle.
    + destruct G as [A B C]. cbn [t_mods t_freed t_next] in *. constructor; cbn [t_mods t_freed t_next].
      * cbn [keys map]. constructor; assumption.
      * cbn [ids map app d_id]. constructor; [intros I; specialize (C _ I); lia|exact B].
      * intros i [<-|I]; [cbn; lia|specialize (C _ I); lia].
Qed.
Lemma ids_flag : forall (h : md -> bool) l, keys (map (fun m => if h m then Md (d_id m) (d_key m) true else m) l) = keys l /\ ids (map (fun m => if h m then Md (d_id m) (d_key m) true else m) l) = ids l.
Proof. intros h. induction l as [|m l (IH1 & IH2)]; [split; reflexivity|]. cbn [map keys ids] in *. unfold keys, ids in *. rewrite IH1, IH2. destruct (h m); split; reflexivity. Qed.
Lemma good_flag : forall (h : md -> bool) l n f, good (St l n f) -> good (St (map (fun m => if h m then Md (d_id m) (d_key m) true else m) l) n f).
Proof. intros h l n f [A B C]. destruct (ids_flag h l) as (K & I). constructor; cbn [t_mods t_freed t_next] in *; rewrite ?K, ?I; assumption. Qed.
(* the sweep *)
Definition gone (l : list md) : list md := filter d_gc l.
Definition stays (l : list md) : list md := filter (fun m => negb (d_gc m)) l.
Lemma sweep_ok : forall removed l, let '(k, fr, c, x) := sweep removed l in
  (x = 0 /\ k = stays l /\ fr = ids (gone l) /\ c = match removed with Some _ => ids (gone l) | None => [] end /\ (forall f, removed = Some f -> forall m, In m l -> d_gc m = true -> f (d_id m) = 0)) \/
  (x <> 0 /\ exists f l1 m l2, removed = Some f /\ l = l1 ++ m :: l2 /\ d_gc m = true /\ f (d_id m) = x /\ k = stays l1 ++ m :: l2 /\ fr = ids (gone l1) /\ c = ids (gone l1) ++ [d_id m] /\ (forall m', In m' l1 -> d_gc m' = true -> f (d_id m') = 0)).
Proof.
  intros removed. induction l as [|m l IH]; cbn [sweep]; [left; split; [reflexivity|]; split; [reflexivity|]; split; [reflexivity|]; split; [destruct removed; reflexivity|]; intros; contradiction|].
  destruct (d_gc m) eqn:G.
  - destruct removed as [f|].
    + destruct (negb (f (d_id m) =? 0)) eqn:Z0.
      * right. split; [lia|]. exists f, [], m, l. repeat (split; [reflexivity||exact G|]). intros; contradiction.
      * destruct (sweep (Some f) l) as (((k, fr), c), x). destruct IH as [(-> & -> & -> & -> & A)|(X & f' & l1 & m1 & l2 & E & -> & G1 & FX & -> & -> & -> & A)].
        -- left. split; [reflexivity|]. unfold stays, gone. cbn [filter]. rewrite G. cbn [negb]. split; [reflexivity|]. split; [reflexivity|]. split; [reflexivity|]. intros f' E. injection E as <-. intros m' [<-|I] G'; [lia|exact (A f eq_refl m' I G')].
        -- right. injection E as <-. split; [exact X|]. exists f, (m :: l1), m1, l2. split; [reflexivity|]. split; [reflexivity|]. split; [exact G1|]. split; [exact FX|]. unfold stays, gone. cbn [filter]. rewrite G. cbn [negb]. split; [reflexivity|]. split; [reflexivity|]. split; [reflexivity|]. intros m' [<-|I] G'; [lia|exact (A m' I G')].
    + destruct (sweep None l) as (((k, fr), c), x). destruct IH as [(-> & -> & -> & -> & A)|(X & f' & l1 & m1 & l2 & E & _)]; [|discriminate].
      left. split; [reflexivity|]. unfold stays, gone. cbn [filter]. rewrite G. cbn [negb]. split; [reflexivity|]. split; [reflexivity|]. split; [reflexivity|]. intros f' E. discriminate.
  - destruct (sweep removed l) as (((k, fr), c), x). destruct IH as [(-> & -> & -> & -> & A)|(X & f' & l1 & m1 & l2 & -> & -> & G1 & FX & -> & -> & -> & A)].
    + left. split; [reflexivity|]. unfold stays, gone. cbn [filter]. rewrite G. cbn [negb]. split; [reflexivity|]. split; [reflexivity|]. split; [reflexivity|]. intros f' E m' [<-|I] G'; [congruence|exact (A f' E m' I G')].
    + right. split; [exact X|]. exists f', (m :: l1), m1, l2. split; [reflexivity|]. split; [reflexivity|]. split; [exact G1|]. split; [exact FX|]. unfold stays, gone. cbn [filter]. rewrite G. cbn [negb]. split; [reflexivity|]. split; [reflexivity|]. split; [reflexivity|]. intros m' [<-|I] G'; [congruence|exact (A m' I G')].
Qed.
Lemma split_perm : forall l, Permutation l (stays l ++ gone l).
Proof.
  induction l as [|m l IH]; [constructor|]. unfold stays, gone in *. cbn [filter]. destruct (d_gc m); cbn [negb]; [rewrite <- Permutation_middle; constructor; exact IH|cbn [app]; constructor; exact IH].
Qed.
(* what is kept and what is freed are what was there *)
Lemma sweep_perm : forall removed l, let '(k, fr, _, _) := sweep removed l in Permutation (ids l) (ids k ++ fr) /\ exists kg, Permutation (keys l) (keys k ++ kg).
Proof.
  intros removed l. pose proof (sweep_ok removed l) as H. destruct (sweep removed l) as (((k, fr), c), x). destruct H as [(_ & -> & -> & _)|(_ & f & l1 & m & l2 & _ & -> & _ & _ & -> & -> & _)].
  - split; [|exists (keys (gone l))]; unfold ids, keys; rewrite <- map_app; apply Permutation_map, split_perm.
  - assert (P : Permutation (l1 ++ m :: l2) ((stays l1 ++ m :: l2) ++ gone l1)). { rewrite (split_perm l1) at 1. rewrite <- !app_assoc. apply Permutation_app_head. apply Permutation_app_comm. }
    split; [|exists (keys (gone l1))]; unfold ids, keys; rewrite <- map_app; apply Permutation_map, P.
Qed.
Lemma nodup_l : forall (A : Type) (l l' : list A), NoDup (l ++ l') -> NoDup l.
Proof. intros A. induction l as [|x l IH]; intros l' H; [constructor|]. cbn in H. inversion H as [|? ? N H']; subst. constructor; [intros I; apply N, in_or_app; left; exact I|exact (IH l' H')]. Qed.
Lemma good_do : forall c s, good s -> good (do c s).
Proof.
  intros c s G. destruct c as [| |k|k|removed]; cbn [do].
  - destruct s as [l n f]. unfold report_begin. cbn [t_mods t_next t_freed]. exact (good_flag (fun _ => true) l n f G).
  - exact G.
  - apply good_report. exact G.
  - unfold report_clash. pose proof (proj1 (good_report k s G)) as G1. destruct (report_module k s) as ([l n f], h). cbn [fst t_mods t_next t_freed] in *. exact (good_flag (fun m => d_id m =? h) l n f G1).
  - unfold report_end. pose proof (sweep_perm removed (t_mods s)) as P. destruct (sweep removed (t_mods s)) as (((k, fr), c), x). cbn [fst]. destruct P as (P & kg & PK). destruct G as [A B C].
    assert (PP : Permutation (ids (t_mods s) ++ t_freed s) (ids k ++ rev fr ++ t_freed s)). { rewrite P, <- app_assoc. apply Permutation_app_head, Permutation_app_tail, Permutation_rev. }
    constructor; cbn [t_mods t_freed t_next].
    + apply (Permutation_NoDup PK) in A. apply nodup_l in A. exact A.
    + exact (Permutation_NoDup PP B).
    + intros i I. apply C. apply (Permutation_in _ (Permutation_sym PP)). exact I.
Qed.
Lemma good_all : forall cs s, good s -> good (doall cs s).
Proof. induction cs as [|c cs IH]; intros s G; [exact G|]. cbn [doall]. apply IH, good_do, G. Qed.
Lemma good_empty : good empty.
Proof. constructor; cbn; try constructor. intros i []. Qed.

(* when nothing clashes: those reported are first, in the order of their reports *)
Definition marked (g : bool) (l : list md) : Prop := Forall (fun m => d_gc m = g) l.
Lemma report_marked : forall k s live old, t_mods s = live ++ old -> marked false live -> marked true old -> NoDup (keys (t_mods s)) ->
  (In k (keys live) /\ t_mods (fst (report_module k s)) = live ++ old /\ t_next (fst (report_module k s)) = t_next s) \/
  (exists o1 m o2, old = o1 ++ m :: o2 /\ d_key m = k /\ ~ In k (keys live) /\ t_mods (fst (report_module k s)) = (live ++ [live_md m]) ++ o1 ++ o2 /\ t_next (fst (report_module k s)) = t_next s) \/
  (~ In k (keys (live ++ old)) /\ t_mods (fst (report_module k s)) = (live ++ [Md (t_next s) k false]) ++ old /\ t_next (fst (report_module k s)) = t_next s + 1).
Proof.
  intros k s live old E L O ND. destruct (report_ok k s) as [(a & b & m & l2 & E1 & F & K & N & T & R)|(a & b & E1 & F & N & T & R)]; rewrite R; cbn [fst t_mods t_next].
  - rewrite E in E1. assert (E2 : live ++ old = (a ++ b) ++ m :: l2) by (rewrite E1, app_assoc; reflexivity). destruct (d_gc m) eqn:G.
    + right. left. assert (Q : exists o1, a ++ b = live ++ o1 /\ old = o1 ++ m :: l2).
      { clear - E2 L G. revert live L E2. generalize (a ++ b) as p. induction p as [|x p IH]; intros live L E2.
        - destruct live as [|y live]; [exists []; split; [reflexivity|exact E2]|]. cbn in E2. injection E2 as -> _. apply Forall_cons_iff in L. destruct L as (L & _). congruence.
        - destruct live as [|y live]; [exists (x :: p); split; [reflexivity|exact E2]|]. cbn in E2. injection E2 as -> E2. apply Forall_cons_iff in L. destruct L as (_ & L). destruct (IH live L E2) as (o1 & H1 & H2). exists o1. split; [cbn; f_equal; exact H1|exact H2]. }
      destruct Q as (o1 & Q1 & Q2). exists o1, m, l2. split; [exact Q2|]. split; [exact K|]. split; [intros I; apply N; rewrite Q1; unfold keys in *; rewrite map_app; apply in_or_app; left; exact I|]. split; [|reflexivity].
      rewrite Q1 in T. assert (O1 : Forall (fun m => d_gc m = true) o1) by (unfold marked in O; rewrite Q2 in O; apply Forall_app in O; exact (proj1 O)). rewrite (tailpos_live live o1 0 0 L O1) in T.
      assert (LA : length a = length live) by (rewrite T; destruct live; reflexivity). assert (AB : a = live /\ b = o1). { clear - Q1 LA. revert live LA Q1. induction a as [|x a IH]; intros [|y live] LA Q1; try discriminate; [split; [reflexivity|exact Q1]|]. cbn in Q1. injection Q1 as -> Q1. injection LA as LA. destruct (IH live LA Q1) as (-> & ->). auto. }
      destruct AB as (-> & ->). rewrite <- app_assoc. reflexivity.
    + left. assert (IL : exists p q, live = (a ++ b) ++ m :: p /\ p ++ old = l2 /\ q = 0).
      { clear - E2 O G. revert live E2. generalize (a ++ b) as p. induction p as [|x p IH]; intros live E2.
        - destruct live as [|y live]; [cbn in E2; unfold marked in O; rewrite E2 in O; apply Forall_cons_iff in O; destruct O as (O & _); congruence|]. cbn in E2. injection E2 as -> E2. exists live, 0. auto.
        - destruct live as [|y live]; [cbn in E2; unfold marked in O; rewrite E2 in O; apply Forall_cons_iff in O; destruct O as (_ & O); apply Forall_app in O; destruct O as (_ & O); apply Forall_cons_iff in O; destruct O as (O & _); congruence|]. cbn in E2. injection E2 as -> E2. destruct (IH live E2) as (p' & q & -> & H & Q). exists p', q. auto. }
      destruct IL as (p & _ & E3 & E4 & _). split; [unfold keys; rewrite E3, map_app; apply in_or_app; right; left; exact K|]. split; [|reflexivity].
      assert (LV : Forall (fun m => d_gc m = false) (a ++ b)) by (unfold marked in L; rewrite E3 in L; apply Forall_app in L; exact (proj1 L)).
      assert (B0 : b = []). { destruct b as [|x b]; [reflexivity|]. apply Forall_app in LV. destruct LV as (_ & LV). apply Forall_cons_iff in LV. apply Forall_cons_iff in F. destruct LV, F. congruence. }
      subst b. rewrite app_nil_r in *. cbn [app]. rewrite E3, <- E4, <- app_assoc. cbn [app]. f_equal. destruct m as [i kk g]. cbn in G. subst g. reflexivity.
  - right. right. rewrite <- E1, E in N. split; [exact N|]. split; [|reflexivity]. rewrite E in E1. rewrite <- E1 in T. rewrite (tailpos_live live old 0 0 L O) in T. assert (LA : length a = length live) by (rewrite T; destruct live; reflexivity).
    assert (AB : a = live /\ b = old). { clear - E1 LA. revert live LA E1. induction a as [|x a IH]; intros [|y live] LA Q1; try discriminate; [split; [reflexivity|symmetry; exact Q1]|]. cbn in Q1. injection Q1 as -> Q1. injection LA as LA. destruct (IH live LA Q1) as (-> & ->). auto. }
    destruct AB as (-> & ->). rewrite <- app_assoc. reflexivity.
Qed.
Lemma firsts_ext : forall ks s1 s2, (forall k, existsb (key_eqb k) s1 = existsb (key_eqb k) s2) -> firsts ks s1 = firsts ks s2.
Proof.
  induction ks as [|k ks IH]; intros s1 s2 E; [reflexivity|]. cbn [firsts]. rewrite (E k). destruct (existsb (key_eqb k) s2); [apply IH; exact E|]. f_equal. apply IH. intros k'. cbn [existsb]. rewrite E. reflexivity.
Qed.
Lemma existsb_in : forall k l, existsb (key_eqb k) l = true <-> In k l.
Proof. intros k l. rewrite existsb_exists. split; [intros (x & I & E); apply key_eqb_eq in E; subst; exact I|intros I; exists k; split; [exact I|apply key_eqb_eq; reflexivity]]. Qed.
Lemma firsts_notin : forall ks seen x, In x (firsts ks seen) -> ~ In x seen /\ In x ks.
Proof.
  induction ks as [|k ks IH]; intros seen x I; [contradiction|]. cbn [firsts] in I. destruct (existsb (key_eqb k) seen) eqn:E.
  - destruct (IH seen x I) as (A & B). split; [exact A|right; exact B].
  - destruct I as [<-|I]; [split; [intros J; apply existsb_in in J; congruence|left; reflexivity]|]. destruct (IH _ x I) as (A & B). split; [intros J; apply A; right; exact J|right; exact B].
Qed.
Lemma firsts_in : forall ks seen x, In x ks -> ~ In x seen -> In x (firsts ks seen).
Proof.
  induction ks as [|k ks IH]; intros seen x I N; [contradiction|]. cbn [firsts]. destruct (existsb (key_eqb k) seen) eqn:E.
  - destruct I as [<-|I]; [apply existsb_in in E; contradiction|apply IH; assumption].
  - destruct (key_eqb k x) eqn:EQ; [left; apply key_eqb_eq; exact EQ|right]. apply key_eqb_neq in EQ. destruct I as [I|I]; [contradiction|]. apply IH; [exact I|]. intros [J|J]; [contradiction|exact (N J)].
Qed.
Definition unreported (ks : list key) (m : md) : bool := negb (existsb (key_eqb (d_key m)) ks).
Lemma reports_ok : forall ks s live old, t_mods s = live ++ old -> marked false live -> marked true old -> good s ->
  exists new, t_mods (doall (map Report ks) s) = live ++ new ++ filter (unreported ks) old /\ marked false new /\
    keys new = firsts ks (keys live) /\ t_freed (doall (map Report ks) s) = t_freed s /\
    (forall m, In m new -> (exists m0, In m0 old /\ d_id m = d_id m0 /\ d_key m = d_key m0) \/ (t_next s <= d_id m /\ ~ In (d_key m) (keys old))).
Proof.
  induction ks as [|k ks IH]; intros s live old E L O G.
  - exists []. cbn [map doall app]. split; [rewrite E; f_equal; clear; induction old as [|m old IHo]; [reflexivity|cbn; f_equal; exact IHo]|]. split; [constructor|]. split; [reflexivity|]. split; [reflexivity|]. intros m [].
  - cbn [map doall do]. pose proof (proj1 (good_report k s G)) as G1. assert (FR : t_freed (fst (report_module k s)) = t_freed s) by (destruct (report_ok k s) as [(a & b & m & l2 & _ & _ & _ & _ & _ & R)|(a & b & _ & _ & _ & _ & R)]; rewrite R; reflexivity).
    cbn [firsts].
    assert (DIS : forall x, In x (keys live) -> In x (keys old) -> False).
    { intros x X Y. destruct G as [A _ _]. rewrite E in A. unfold keys in *. rewrite map_app in A. apply in_split in X. destruct X as (p & q & X). rewrite X in A. rewrite <- app_assoc in A. cbn [app] in A. apply NoDup_remove_2 in A. apply A. apply in_or_app. right. apply in_or_app. right. exact Y. }
    destruct (report_marked k s live old E L O (g_keys s G)) as [(I & M & NX)|[(o1 & m & o2 & -> & K & NI & M & NX)|(NI & M & NX)]].
    + destruct (IH _ live old M L O G1) as (new & M' & LN & KN & F' & IDS). exists new. rewrite (proj2 (existsb_in k (keys live)) I). rewrite NX in IDS. split; [|split; [exact LN|split; [exact KN|split; [congruence|exact IDS]]]].
      rewrite M'. f_equal. f_equal. apply filter_ext_in. intros x X. unfold unreported. cbn [existsb]. destruct (key_eqb (d_key x) k) eqn:EQ; [|reflexivity]. exfalso. apply key_eqb_eq in EQ. apply (DIS k I). rewrite <- EQ. apply in_map. exact X.
    + assert (L1 : marked false (live ++ [live_md m])) by (apply Forall_app; split; [exact L|repeat constructor]).
      apply Forall_app in O. destruct O as (O1 & O2). apply Forall_cons_iff in O2. destruct O2 as (GM & O2). assert (O' : marked true (o1 ++ o2)) by (apply Forall_app; split; assumption).
      destruct (IH _ _ _ M L1 O' G1) as (new & M' & LN & KN & F' & IDS). exists (live_md m :: new). assert (EX : existsb (key_eqb k) (keys live) = false) by (destruct (existsb (key_eqb k) (keys live)) eqn:X; [apply existsb_in in X; contradiction|reflexivity]). rewrite EX.
      assert (NK : forall x, In x (o1 ++ o2) -> d_key x <> k).
      { intros x X EQ. destruct G as [A _ _]. rewrite E in A. unfold keys in *. rewrite !map_app in A. cbn [map] in A. rewrite app_assoc in A. apply NoDup_remove_2 in A. apply A. rewrite K, <- EQ. rewrite <- app_assoc. apply in_or_app. right. rewrite <- map_app. apply in_map. exact X. }
      assert (FE : filter (unreported (k :: ks)) (o1 ++ m :: o2) = filter (unreported ks) (o1 ++ o2)).
      { rewrite !filter_app. cbn [filter]. assert (X : unreported (k :: ks) m = false) by (unfold unreported; cbn [existsb]; rewrite (proj2 (key_eqb_eq (d_key m) k) K); reflexivity). rewrite X.
        assert (Y : forall x, In x (o1 ++ o2) -> unreported (k :: ks) x = unreported ks x) by (intros x I; unfold unreported; cbn [existsb]; rewrite (proj2 (key_eqb_neq (d_key x) k) (NK x I)); reflexivity).
        f_equal; apply filter_ext_in; intros x I; apply Y; apply in_or_app; auto. }
      split; [rewrite M', FE, <- app_assoc; reflexivity|]. split; [constructor; [reflexivity|exact LN]|]. split.
      * cbn [keys map live_md d_key]. rewrite K. f_equal. unfold keys in *. rewrite KN. apply firsts_ext. intros k'. rewrite map_app, existsb_app. cbn [map existsb live_md d_key]. rewrite K, orb_false_r. apply orb_comm.
      * split; [congruence|]. intros x [<-|I]; [left; exists m; split; [apply in_or_app; right; left; reflexivity|split; reflexivity]|]. destruct (IDS x I) as [(m0 & I0 & E0)|(N0 & N1)].
        -- left. exists m0. split; [apply in_app_or in I0; apply in_or_app; destruct I0; [left; assumption|right; right; assumption]|exact E0].
        -- right. rewrite NX in N0. split; [exact N0|]. unfold keys in *. rewrite map_app in *. cbn [map]. intros J. apply in_app_or in J. destruct J as [J|[J|J]]; [apply N1; apply in_or_app; left; exact J| |apply N1; apply in_or_app; right; exact J].
           assert (IX : In (d_key x) (firsts ks (map d_key live ++ map d_key [live_md m]))) by (rewrite <- KN; apply in_map; exact I). apply firsts_notin in IX. apply (proj1 IX). apply in_or_app. right. left. exact J.
    + assert (L1 : marked false (live ++ [Md (t_next s) k false])) by (apply Forall_app; split; [exact L|repeat constructor]).
      destruct (IH _ _ _ M L1 O G1) as (new & M' & LN & KN & F' & IDS). exists (Md (t_next s) k false :: new). unfold keys in NI. rewrite map_app in NI.
      assert (EX : existsb (key_eqb k) (keys live) = false) by (destruct (existsb (key_eqb k) (keys live)) eqn:X; [apply existsb_in in X; exfalso; apply NI, in_or_app; left; exact X|reflexivity]). rewrite EX.
      assert (FE : filter (unreported (k :: ks)) old = filter (unreported ks) old).
      { apply filter_ext_in. intros x I. unfold unreported. cbn [existsb]. destruct (key_eqb (d_key x) k) eqn:EQ; [|reflexivity]. exfalso. apply key_eqb_eq in EQ. apply NI, in_or_app. right. rewrite <- EQ. apply in_map. exact I. }
      split; [rewrite M', FE, <- app_assoc; reflexivity|]. split; [constructor; [reflexivity|exact LN]|]. split.
      * cbn [keys map d_key]. f_equal. unfold keys in *. rewrite KN. apply firsts_ext. intros k'. rewrite map_app, existsb_app. cbn [map existsb d_key]. rewrite orb_false_r. apply orb_comm.
      * split; [congruence|]. intros x [<-|I]; [right; split; [cbn; lia|intros J; apply NI, in_or_app; right; exact J]|]. destruct (IDS x I) as [H|(N0 & N1)]; [left; exact H|right; split; [lia|exact N1]].
Qed.
