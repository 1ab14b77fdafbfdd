From Verif Require Import Base StrtabModel StrtabSpec.
From Coq Require Import Permutation.

Fixpoint entries (t : stree) : list sent :=
  match t with SLeaf => [] | SNode l e subs r => entries l ++ (e :: subs) ++ entries r end.
Fixpoint nodes (t : stree) : list sent :=
  match t with SLeaf => [] | SNode l e _ r => nodes l ++ e :: nodes r end.

Definition key (e : sent) : bytes := rev (removelast (se_str e)).
Definition good (e : sent) : Prop := c_string (se_str e).
Definition prefix (a b : bytes) : Prop := exists c, b = a ++ c.

Fixpoint rlt (a b : bytes) : Prop :=
  match a, b with
  | x :: a, y :: b => x < y \/ (x = y /\ rlt a b)
  | _, _ => False
  end.

Lemma rlt_irrefl : forall a, ~ rlt a a.
Proof. induction a; simpl; [tauto|]. intros [H|[_ H]]; [lia|tauto]. Qed.

Lemma rlt_trans : forall a b c, rlt a b -> rlt b c -> rlt a c.
Proof.
  induction a as [|x a IH]; intros [|y b] [|z c]; simpl; try tauto.
  intros [H|[-> H]] [H'|[<- H']]; try (left; lia). right; split; [auto|]. eauto.
Qed.

Lemma rlt_ext_r : forall a b c, rlt a b -> rlt a (b ++ c).
Proof. induction a as [|x a IH]; intros [|y b] c; simpl; try tauto. intros [H|[H H']]; [left|right]; auto. Qed.

Lemma rlt_ext_l : forall a b c, rlt a b -> rlt (a ++ c) b.
Proof. induction a as [|x a IH]; intros [|y b] c; simpl; try tauto. intros [H|[H H']]; [left|right]; auto. Qed.

Lemma rlt_prefix_r : forall a b, rlt a b -> ~ prefix a b.
Proof.
  induction a as [|x a IH]; intros b H [c ->]; [destruct c; exact H|].
  simpl in H. destruct H as [H|[_ H]]; [lia|]. apply (IH (a ++ c)); [exact H|now exists c].
Qed.

Lemma rlt_prefix_l : forall a b, rlt a b -> ~ prefix b a.
Proof.
  induction a as [|x a IH]; intros b H [c Hc]; [destruct b; exact H|].
  destruct b as [|y b]; [exact H|]. simpl in Hc. injection Hc as -> ->.
  simpl in H. destruct H as [H|[_ H]]; [lia|]. apply (IH b); [exact H|now exists c].
Qed.

Lemma memcmp_spec : forall a b n, n = Nat.min (length a) (length b) -> forall ra rb,
  let c := memcmp n (a ++ ra) (b ++ rb) in
  (0 < c /\ rlt b a) \/ (c < 0 /\ rlt a b) \/
  (c = 0 /\ ((length a <= length b)%nat /\ prefix a b \/ (length b <= length a)%nat /\ prefix b a)).
Proof.
  induction a as [|x a IH]; intros [|y b] n -> ra rb; cbn [length Nat.min memcmp app].
  - right; right. split; [reflexivity|]. left. split; [lia|now exists []].
  - right; right. split; [reflexivity|]. left. split; [lia|now exists (y :: b)].
  - right; right. split; [reflexivity|]. right. split; [lia|now exists (x :: a)].
  - destruct (Z.eqb_spec x y) as [->|Hne].
    + destruct (IH b _ eq_refl ra rb) as [[H H']|[[H H']|[H H']]].
      * left. split; [exact H|]. simpl. auto.
      * right; left. split; [exact H|]. simpl. auto.
      * right; right. split; [exact H|].
        destruct H' as [[? [c ->]]|[? [c ->]]]; [left|right]; (split; [lia|now exists c]).
    + destruct (Z.lt_ge_cases x y).
      * right; left. split; [lia|]. simpl. auto.
      * left. split; [lia|]. simpl. left. lia.
Qed.

Lemma good_str : forall e, good e -> se_str e = rev (key e) ++ [0].
Proof.
  intros e [b H]. unfold key. rewrite H, removelast_last, rev_involutive. reflexivity.
Qed.

Lemma good_len : forall e, good e -> se_len e = zlen (key e) + 1.
Proof.
  intros e H. unfold se_len. rewrite (good_str e H), zlen_app. unfold zlen at 1. rewrite rev_length.
  rewrite zlen_cons, zlen_nil. unfold zlen. lia.
Qed.

Lemma key_inj : forall a b, good a -> good b -> key a = key b -> se_str a = se_str b.
Proof. intros a b Ha Hb H. now rewrite (good_str a Ha), (good_str b Hb), H. Qed.

Lemma prefix_suffix : forall a b, good a -> good b -> (prefix (key a) (key b) <-> suffix (se_str a) (se_str b)).
Proof.
  intros a b Ha Hb. rewrite (good_str a Ha), (good_str b Hb). split.
  - intros [c ->]. exists (rev c). rewrite rev_app_distr, app_assoc. reflexivity.
  - intros [p H]. rewrite app_assoc in H. apply app_inj_tail in H. destruct H as [H _].
    exists (rev p). rewrite <- (rev_involutive (key b)), H, rev_app_distr, rev_involutive. reflexivity.
Qed.

Lemma prefix_len_eq : forall a b, prefix a b -> length a = length b -> a = b.
Proof.
  intros a b [c ->] H. rewrite app_length in H. destruct c; [now rewrite app_nil_r|simpl in H; lia].
Qed.

Definition chain (e : sent) (subs : list sent) : Prop :=
  NoDup (map se_len subs) /\
  forall s, In s subs -> good s /\ prefix (key s) (key e) /\ se_len s < se_len e.

Fixpoint swf (t : stree) : Prop :=
  match t with
  | SLeaf => True
  | SNode l e subs r =>
      swf l /\ swf r /\ good e /\ chain e subs /\
      (forall x, In x (entries l) -> rlt (key x) (key e)) /\
      (forall x, In x (entries r) -> rlt (key e) (key x))
  end.

Lemma swf_good : forall t x, swf t -> In x (entries t) -> good x.
Proof.
  induction t as [|l IHl e subs r IHr]; intros x; simpl; [tauto|].
  intros (Wl & Wr & Ge & (_ & Hc) & _ & _) H.
  rewrite in_app_iff in H. simpl in H. rewrite in_app_iff in H.
  destruct H as [H|[<-|[H|H]]]; auto. apply (Hc x H).
Qed.

Lemma cmp_entries : forall e n, good e -> good n ->
  let c := memcmp (Z.to_nat (Z.min (se_len e) (se_len n) - 1)) (reverse e) (reverse n) in
  (0 < c /\ rlt (key n) (key e)) \/ (c < 0 /\ rlt (key e) (key n)) \/
  (c = 0 /\ (se_len e <= se_len n /\ prefix (key e) (key n) \/
             se_len n <= se_len e /\ prefix (key n) (key e))).
Proof.
  intros e n He Hn. unfold reverse. fold (key e) (key n).
  rewrite (good_len e He), (good_len n Hn).
  destruct (memcmp_spec (key e) (key n) (Z.to_nat (Z.min (zlen (key e) + 1) (zlen (key n) + 1) - 1))
            ltac:(unfold zlen; lia) [0] [0]) as [H|[H|[H H']]]; [now left|now right; left|].
  right; right. split; [exact H|]. unfold zlen. destruct H' as [[? ?]|[? ?]]; [left|right]; (split; [lia|auto]).
Qed.

(* What an insertion does. *)
Definition ins_post (t : stree) (n : sent) (t' : stree) (a : sadd) : Prop :=
  swf t' /\
  match a with
  | SNew => Permutation (entries t') (n :: entries t) /\ Permutation (nodes t') (n :: nodes t)
  | SSubOld s | SExact s => t' = t /\ In s (entries t) /\ se_str s = se_str n
  | SSubNew => Permutation (entries t') (n :: entries t) /\ nodes t' = nodes t
  | SLonger old => Permutation (entries t') (n :: entries t) /\
      exists e rest, Permutation (nodes t) (e :: rest) /\ Permutation (nodes t') (n :: rest) /\
                     se_len e = old
  end.

Lemma find_len : forall subs k,
  match find (fun s => se_len s =? k) subs with
  | Some s => In s subs /\ se_len s = k
  | None => ~ In k (map se_len subs)
  end.
Proof.
  induction subs as [|s subs IH]; intros k; simpl; [tauto|].
  destruct (Z.eqb_spec (se_len s) k) as [E|E]; [auto|].
  specialize (IH k). destruct (find _ subs); [tauto|]. tauto.
Qed.

Lemma entries_in : forall l e subs r x,
  In x (entries (SNode l e subs r)) <-> In x (entries l) \/ e = x \/ In x subs \/ In x (entries r).
Proof.
  intros. cbn [entries]. rewrite in_app_iff. simpl. rewrite in_app_iff. tauto.
Qed.

Lemma insert_ok : forall t n, swf t -> good n ->
  let '(t', a) := strtab_insert t n in ins_post t n t' a.
Proof.
  induction t as [|l IHl e subs r IHr]; intros n W Gn.
  - simpl. unfold ins_post. simpl. split; [|split; apply Permutation_refl].
    split; [exact I|]. split; [exact I|]. split; [exact Gn|].
    split; [split; [constructor|intros s []]|]. split; intros x [].
  - destruct W as (Wl & Wr & Ge & (Nd & Hc) & Hl & Hr).
    cbn [strtab_insert].
    pose proof (cmp_entries e n Ge Gn) as C. cbv zeta in C.
    set (c := memcmp _ _ _) in *.
    destruct (Z.eqb_spec c 0) as [E0|E0].
    + assert (P : se_len e <= se_len n /\ prefix (key e) (key n) \/
                  se_len n <= se_len e /\ prefix (key n) (key e)) by (destruct C as [?|[?|?]]; tauto || lia).
      clear C. destruct (Z.ltb_spec (se_len n) (se_len e)) as [Hlt|Hge].
      * (* substring *)
        destruct P as [[? _]|[_ P]]; [lia|].
        pose proof (find_len subs (se_len n)) as F.
        destruct (find _ subs) as [s|] eqn:Ef.
        -- unfold ins_post. split; [simpl; unfold chain; tauto|]. split; [reflexivity|].
           destruct F as [F1 F2]. split; [apply entries_in; tauto|].
           destruct (Hc s F1) as (Gs & Ps & _).
           apply key_inj; auto.
           destruct P as [u Hu], Ps as [v Hv]. rewrite Hu in Hv.
           rewrite (good_len s Gs), (good_len n Gn) in F2.
           assert (Hlen : length (key s) = length (key n)) by (unfold zlen in F2; lia).
           assert (firstn (length (key n)) (key n ++ u) = firstn (length (key s)) (key s ++ v))
             by congruence.
           rewrite !firstn_app, !Nat.sub_diag, !firstn_all, !firstn_O, !app_nil_r in H. auto.
        -- unfold ins_post. split; [|split; [|reflexivity]].
           ++ cbn [swf]. unfold chain. repeat (split; [assumption|]). split; [|split; assumption].
              split; [simpl; constructor; assumption|].
              intros s [<-|Hs]; [auto|apply Hc; exact Hs].
           ++ cbn [entries]. simpl. 
              change (e :: n :: subs ++ entries r) with ([e] ++ n :: (subs ++ entries r)).
              rewrite app_assoc. eapply Permutation_trans; [apply Permutation_sym, Permutation_middle|].
              rewrite <- app_assoc. apply Permutation_refl.
      * destruct (Z.eqb_spec (se_len e) (se_len n)) as [Eq|Ne]; cbn [negb].
        -- (* exact *)
           unfold ins_post. split; [simpl; unfold chain; tauto|]. split; [reflexivity|].
           split; [apply entries_in; tauto|]. apply key_inj; auto.
           rewrite (good_len e Ge), (good_len n Gn) in Eq.
           destruct P as [[_ P]|[_ P]]; [|symmetry]; apply prefix_len_eq; auto; unfold zlen in Eq; lia.
        -- (* longer *)
           destruct P as [[_ P]|[? _]]; [|lia].
           destruct P as [u Hu].
           unfold ins_post. split; [|split].
           ++ cbn [swf]. split; [exact Wl|]. split; [exact Wr|]. split; [exact Gn|]. split; [split|split].
              ** simpl. constructor; [|exact Nd]. intros Hin. apply in_map_iff in Hin.
                 destruct Hin as (s & Es & Hs). destruct (Hc s Hs) as (_ & _ & ?). lia.
              ** intros s [<-|Hs]; [split; [auto|split; [now exists u|lia]]|].
                 destruct (Hc s Hs) as (Gs & [v Hv] & ?). split; [exact Gs|]. split; [|lia].
                 exists (v ++ u). rewrite Hu, Hv, app_assoc. reflexivity.
              ** intros x Hx. rewrite Hu. apply rlt_ext_r. auto.
              ** intros x Hx. rewrite Hu. apply rlt_ext_l. auto.
           ++ cbn [entries]. simpl. apply Permutation_sym, Permutation_middle.
           ++ exists e, (nodes l ++ nodes r). cbn [nodes]. split; [|split; [|reflexivity]];
                apply Permutation_sym, Permutation_middle.
    + destruct (Z.ltb_spec 0 c) as [Hpos|Hneg].
      * (* left *)
        assert (Rn : rlt (key n) (key e)) by (destruct C as [?|[?|?]]; tauto || lia). clear C.
        specialize (IHl n Wl Gn). destruct (strtab_insert l n) as [l' a].
        destruct IHl as [W' P].
        assert (Sub : (forall x, In x (entries l') -> In x (n :: entries l))).
        { destruct a as [|s| |old|s].
          - destruct P as [P _]. intros x Hx. eapply Permutation_in; eauto.
          - destruct P as [-> _]. intros x Hx. now right.
          - destruct P as [P _]. intros x Hx. eapply Permutation_in; eauto.
          - destruct P as [P _]. intros x Hx. eapply Permutation_in; eauto.
          - destruct P as [-> _]. intros x Hx. now right. }
        split.
        { cbn [swf]. split; [exact W'|]. split; [exact Wr|]. split; [exact Ge|]. split; [split; assumption|].
          split; [|exact Hr]. intros x Hx. destruct (Sub x Hx) as [<-|H]; auto. }
        destruct a as [|s| |old|s].
        -- destruct P as [P1 P2]. cbn [entries nodes]. split.
           ++ change (n :: entries l ++ (e :: subs) ++ entries r)
                with ((n :: entries l) ++ (e :: subs) ++ entries r).
              now apply Permutation_app_tail.
           ++ change (n :: nodes l ++ e :: nodes r) with ((n :: nodes l) ++ e :: nodes r).
              now apply Permutation_app_tail.
        -- destruct P as (-> & P1 & P2). split; [reflexivity|]. split; [apply entries_in; tauto|exact P2].
        -- destruct P as [P1 P2]. cbn [entries nodes]. split; [|congruence].
           change (n :: entries l ++ (e :: subs) ++ entries r)
                with ((n :: entries l) ++ (e :: subs) ++ entries r).
           now apply Permutation_app_tail.
        -- destruct P as (P1 & f & rest & P2 & P3 & P4). cbn [entries nodes]. split.
           ++ change (n :: entries l ++ (e :: subs) ++ entries r)
                with ((n :: entries l) ++ (e :: subs) ++ entries r).
              now apply Permutation_app_tail.
           ++ exists f, (rest ++ e :: nodes r). split; [|split; [|exact P4]].
              ** change (f :: rest ++ e :: nodes r) with ((f :: rest) ++ e :: nodes r).
                 now apply Permutation_app_tail.
              ** change (n :: rest ++ e :: nodes r) with ((n :: rest) ++ e :: nodes r).
                 now apply Permutation_app_tail.
        -- destruct P as (-> & P1 & P2). split; [reflexivity|]. split; [apply entries_in; tauto|exact P2].
      * (* right *)
        assert (Rn : rlt (key e) (key n)) by (destruct C as [?|[?|?]]; tauto || lia). clear C.
        specialize (IHr n Wr Gn). destruct (strtab_insert r n) as [r' a].
        destruct IHr as [W' P].
        assert (Sub : (forall x, In x (entries r') -> In x (n :: entries r))).
        { destruct a as [|s| |old|s].
          - destruct P as [P _]. intros x Hx. eapply Permutation_in; eauto.
          - destruct P as [-> _]. intros x Hx. now right.
          - destruct P as [P _]. intros x Hx. eapply Permutation_in; eauto.
          - destruct P as [P _]. intros x Hx. eapply Permutation_in; eauto.
          - destruct P as [-> _]. intros x Hx. now right. }
        split.
        { cbn [swf]. split; [exact Wl|]. split; [exact W'|]. split; [exact Ge|]. split; [split; assumption|].
          split; [exact Hl|]. intros x Hx. destruct (Sub x Hx) as [<-|H]; auto. }
        assert (PM : forall (A B C D : list sent), Permutation C (n :: D) ->
                       Permutation (A ++ B ++ C) (n :: A ++ B ++ D)).
        { intros A B C D H. rewrite !app_assoc.
          eapply Permutation_trans; [apply Permutation_app_head, H|].
          apply Permutation_sym, Permutation_middle. }
        assert (PN : forall (f : sent) (A C D : list sent), Permutation C (f :: D) ->
                       Permutation (A ++ e :: C) (f :: A ++ e :: D)).
        { intros f A C D H. change (e :: C) with ([e] ++ C). change (e :: D) with ([e] ++ D).
          rewrite !app_assoc. eapply Permutation_trans; [apply Permutation_app_head, H|].
          apply Permutation_sym, Permutation_middle. }
        destruct a as [|s| |old|s].
        -- destruct P as [P1 P2]. cbn [entries nodes]. split; [now apply PM|now apply PN].
        -- destruct P as (-> & P1 & P2). split; [reflexivity|]. split; [apply entries_in; tauto|exact P2].
        -- destruct P as [P1 P2]. cbn [entries nodes]. split; [now apply PM|congruence].
        -- destruct P as (P1 & f & rest & P2 & P3 & P4). cbn [entries nodes]. split; [now apply PM|].
           exists f, (nodes l ++ e :: rest). split; [|split; [|exact P4]]; now apply PN.
        -- destruct P as (-> & P1 & P2). split; [reflexivity|]. split; [apply entries_in; tauto|exact P2].
Qed.

(* Consequences of the tree invariant. *)
Lemma NoDup_app_intro : forall A (a b : list A), NoDup a -> NoDup b ->
  (forall x, In x a -> ~ In x b) -> NoDup (a ++ b).
Proof.
  induction a as [|x a IH]; intros b Ha Hb H; [exact Hb|]. inversion Ha; subst. simpl. constructor.
  - rewrite in_app_iff. intros [?|?]; [tauto|]. apply (H x); simpl; auto.
  - apply IH; auto. intros y Hy. apply H. simpl; auto.
Qed.

Lemma swf_nodup_keys : forall t, swf t -> NoDup (map key (entries t)).
Proof.
  induction t as [|l IHl e subs r IHr]; intros W; [constructor|].
  destruct W as (Wl & Wr & Ge & (Nd & Hc) & Hl & Hr).
  cbn [entries]. rewrite !map_app.
  assert (Hmid : forall k, In k (map key (e :: subs)) -> prefix k (key e)).
  { intros k Hk. apply in_map_iff in Hk. destruct Hk as (s & <- & [<-|Hs]); [now exists []; rewrite app_nil_r|].
    apply Hc; exact Hs. }
  apply NoDup_app_intro; auto.
  - apply NoDup_app_intro; auto.
    + simpl. constructor.
      * intros Hin. apply in_map_iff in Hin. destruct Hin as (s & Es & Hs).
        destruct (Hc s Hs) as (Gs & _ & ?). rewrite (good_len s Gs), (good_len e Ge), Es in H. lia.
      * assert (Hg : forall s, In s subs -> good s) by (intros s Hs; apply Hc; exact Hs).
        clear - Nd Hg. induction subs as [|s subs IH]; [constructor|]. inversion Nd; subst.
        simpl. constructor; [|apply IH; auto; intros x Hx; apply Hg; simpl; auto].
        intros Hin. apply in_map_iff in Hin. destruct Hin as (x & Ex & Hx). apply H1.
        apply in_map_iff. exists x. split; [|exact Hx].
        rewrite (good_len x), (good_len s) by (apply Hg; simpl; auto). now rewrite Ex.
    + intros k Hk Hk'. apply in_map_iff in Hk'. destruct Hk' as (x & <- & Hx).
      eapply rlt_prefix_l; [apply (Hr x Hx)|auto].
  - intros k Hk Hin. apply in_map_iff in Hk. destruct Hk as (x & <- & Hx).
    rewrite in_app_iff in Hin. destruct Hin as [Hin|Hin].
    + eapply rlt_prefix_r; [apply (Hl x Hx)|auto].
    + apply in_map_iff in Hin. destruct Hin as (y & Ey & Hy).
      apply (rlt_irrefl (key x)). eapply rlt_trans; [apply (Hl x Hx)|]. rewrite <- Ey. auto.
Qed.

Lemma nodes_entries : forall t x, In x (nodes t) -> In x (entries t).
Proof.
  induction t as [|l IHl e subs r IHr]; intros x; [simpl; tauto|].
  intros H. apply entries_in. cbn [nodes] in H. rewrite in_app_iff in H. simpl in H.
  destruct H as [H|[H|H]]; auto.
Qed.

Lemma entries_under_node : forall t x, swf t -> In x (entries t) ->
  exists y, In y (nodes t) /\ prefix (key x) (key y) /\ (x = y \/ se_len x < se_len y).
Proof.
  induction t as [|l IHl e subs r IHr]; intros x W H; [destruct H|].
  destruct W as (Wl & Wr & Ge & (Nd & Hc) & Hl & Hr).
  apply entries_in in H. cbn [nodes].
  destruct H as [H|[<-|[H|H]]].
  - destruct (IHl x Wl H) as (y & ? & ?). exists y. rewrite in_app_iff. tauto.
  - exists e. rewrite in_app_iff. simpl. split; [tauto|]. split; [now exists []; rewrite app_nil_r|tauto].
  - destruct (Hc x H) as (_ & ? & ?). exists e. rewrite in_app_iff. simpl. tauto.
  - destruct (IHr x Wr H) as (y & ? & ?). exists y. rewrite in_app_iff. simpl. tauto.
Qed.

Lemma nodes_incomparable : forall t x y, swf t -> In x (nodes t) -> In y (nodes t) ->
  prefix (key x) (key y) -> x = y.
Proof.
  induction t as [|l IHl e subs r IHr]; intros x y W Hx Hy P; [destruct Hx|].
  destruct W as (Wl & Wr & Ge & (Nd & Hc) & Hl & Hr).
  cbn [nodes] in Hx, Hy. rewrite in_app_iff in Hx, Hy. simpl in Hx, Hy.
  assert (Hl' : forall x, In x (nodes l) -> rlt (key x) (key e)) by (intros; apply Hl, nodes_entries; auto).
  assert (Hr' : forall x, In x (nodes r) -> rlt (key e) (key x)) by (intros; apply Hr, nodes_entries; auto).
  destruct Hx as [Hx|[<-|Hx]]; destruct Hy as [Hy|[<-|Hy]]; auto; exfalso.
  - exact (rlt_prefix_r _ _ (Hl' _ Hx) P).
  - exact (rlt_prefix_r _ _ (rlt_trans _ _ _ (Hl' _ Hx) (Hr' _ Hy)) P).
  - exact (rlt_prefix_l _ _ (Hl' _ Hy) P).
  - exact (rlt_prefix_r _ _ (Hr' _ Hy) P).
  - exact (rlt_prefix_l _ _ (rlt_trans _ _ _ (Hl' _ Hy) (Hr' _ Hx)) P).
  - exact (rlt_prefix_l _ _ (Hr' _ Hx) P).
Qed.

(* ------------------------------------------------------------ copystrings *)
Definition node_total (l : list sent) : Z := fold_right (fun e n => se_len e + n) 0 l.

Lemma node_total_app : forall a b, node_total (a ++ b) = node_total a + node_total b.
Proof. induction a as [|x a IH]; intros b; cbn [app node_total fold_right]; [reflexivity|].
  fold (node_total (a ++ b)) (node_total a). rewrite IH. lia. Qed.

Lemma node_total_perm : forall a b, Permutation a b -> node_total a = node_total b.
Proof. induction 1; cbn [node_total fold_right] in *; unfold node_total in *; lia. Qed.

Lemma sub_offsets_ok : forall subs noff e, 0 <= noff -> good e ->
  (forall s, In s subs -> good s /\ prefix (key s) (key e) /\ se_len s < se_len e) ->
  sub_offsets noff (se_len e) subs
  = Ok (map (fun s => (se_ptr s, noff + se_len e - se_len s)) subs).
Proof.
  induction subs as [|s subs IH]; intros noff e Hn Ge Hc; [reflexivity|].
  cbn [sub_offsets map]. destruct (Hc s (or_introl eq_refl)) as (_ & _ & Hlt).
  replace (se_len s <? se_len e) with true by lia. cbn [negb].
  replace (noff + se_len e - se_len s =? 0) with false by lia. cbn [andb].
  rewrite IH; auto. intros x Hx. apply Hc. simpl; auto.
Qed.

Lemma zsub_app_inner : forall (a b c : bytes) o, o = zlen a -> zsub (a ++ b ++ c) o (zlen b) = b.
Proof. intros a b c o ->. apply zsub_app. Qed.

Lemma copy_ok : forall t off, swf t -> 0 <= off ->
  exists b offs, copystrings t off = Ok (b, offs, off + node_total (nodes t)) /\
    zlen b = node_total (nodes t) /\ map fst offs = map se_ptr (entries t) /\
    forall x, In x (entries t) ->
      exists o, In (se_ptr x, o) offs /\ off <= o /\ o + se_len x <= off + zlen b /\
        forall pre post, zlen pre = off -> zsub (pre ++ b ++ post) o (se_len x) = se_str x.
Proof.
  induction t as [|l IHl e subs r IHr]; intros off W Hoff.
  - exists [], []. cbn [copystrings nodes node_total fold_right entries]. rewrite Z.add_0_r.
    repeat split. intros x [].
  - destruct W as (Wl & Wr & Ge & (Nd & Hc) & Hl & Hr).
    destruct (IHl off Wl Hoff) as (lb & lo & El & Ll & Fl & Cl).
    pose proof (zlen_nonneg _ lb) as Hlb. pose proof (zlen_nonneg _ (se_str e)) as Hle.
    fold (se_len e) in Hle.
    destruct (IHr (off + node_total (nodes l) + se_len e) Wr ltac:(lia)) as (rb & ro & Er & Lr & Fr & Cr).
    cbn [copystrings]. rewrite El. cbn [obind].
    rewrite (sub_offsets_ok subs _ e) by (auto; lia). cbn [obind].
    rewrite Er. cbn [obind].
    eexists _, _. cbn [nodes]. rewrite node_total_app. cbn [node_total fold_right].
    fold (node_total (nodes r)).
    split; [do 2 f_equal; lia|]. split; [rewrite !zlen_app; fold (se_len e); lia|].
    split.
    { cbn [entries]. rewrite !map_app. cbn [map]. rewrite !map_app, Fl, Fr. cbn [fst app].
      do 3 f_equal. rewrite map_map. reflexivity. }
    pose proof (zlen_nonneg _ rb) as Hrb.
    intros x Hx. apply entries_in in Hx. rewrite !zlen_app. fold (se_len e).
    destruct Hx as [Hx|[<-|[Hx|Hx]]].
    + destruct (Cl x Hx) as (o & Ho & H1 & H2 & H3). exists o.
      split; [rewrite in_app_iff; auto|]. split; [lia|]. split; [lia|].
      intros pre post Hp. rewrite <- !app_assoc. apply H3; exact Hp.
    + exists (off + node_total (nodes l)). split; [rewrite in_app_iff; right; left; reflexivity|].
      split; [lia|]. split; [lia|].
      intros pre post Hp. rewrite <- !app_assoc. rewrite (app_assoc pre lb). unfold se_len.
      apply zsub_app_inner. rewrite zlen_app. lia.
    + destruct (Hc x Hx) as (Gx & Px & Hlt).
      pose proof (zlen_nonneg _ (se_str x)) as Hx0. fold (se_len x) in Hx0.
      exists (off + node_total (nodes l) + se_len e - se_len x).
      split. { rewrite in_app_iff; right; right. rewrite in_app_iff. left.
               apply in_map_iff. exists x. auto. }
      split; [lia|]. split; [lia|].
      intros pre post Hp.
      apply (prefix_suffix x e Gx Ge) in Px. destruct Px as [p Hp'].
      assert (Lp : zlen p = se_len e - se_len x)
        by (unfold se_len; rewrite Hp', zlen_app; lia).
      rewrite Hp'. rewrite <- !app_assoc. rewrite (app_assoc pre lb), (app_assoc (pre ++ lb) p).
      unfold se_len. apply zsub_app_inner. rewrite !zlen_app. fold (se_len x). fold (se_len e). lia.
    + destruct (Cr x Hx) as (o & Ho & H1 & H2 & H3). exists o.
      split; [rewrite in_app_iff; right; right; rewrite in_app_iff; auto|].
      split; [lia|]. split; [lia|].
      intros pre post Hp. rewrite <- !app_assoc.
      rewrite (app_assoc pre lb), (app_assoc (pre ++ lb)).
      apply H3. rewrite !zlen_app. fold (se_len e). lia.
Qed.

(* ------------------------------------------------------------ the arena *)
(* Bytes [o, o + n) of block k. *)
Definition extent := (nat * Z * Z)%type.
Definition disjoint (a b : extent) : Prop :=
  let '(k, o, n) := a in let '(k', o', n') := b in
  k <> k' \/ o + n <= o' \/ o' + n' <= o.
(* every entry has its struct, tree nodes also the reversed string *)
Definition ext_of (e : sent) (n : Z) (x : extent) : Prop :=
  match se_ptr e with EAt k o => x = (k, o, n) | ENull => False end.

Definition below (st : strtab) (e : sent) (n : Z) : Prop :=
  exists k o, se_ptr e = EAt k o /\ MB_OVERHEAD <= o /\ o mod SENT_ALIGN = 0 /\ (k < length (st_blocks st))%nat /\
    (exists sz, nth_error (st_blocks st) k = Some sz /\ o + n <= sz) /\
    (k = (length (st_blocks st) - 1)%nat -> o + n <= st_boff st).

Definition apart (a : sent) (na : Z) (b : sent) (nb : Z) : Prop :=
  match se_ptr a, se_ptr b with
  | EAt k o, EAt k' o' => disjoint (k, o, na) (k', o', nb)
  | _, _ => False
  end.

(* the room an entry still uses *)
Definition used (t : stree) (e : sent) (n : Z) : Prop :=
  (In e (entries t) /\ n = SENT_SIZE) \/ (In e (nodes t) /\ n = SENT_SIZE + se_len e).

Record arena_ok (st : strtab) : Prop := {
  ar_cur : match rev (st_blocks st) with
           | [] => st_boff st = 0 /\ st_left st = 0
           | sz :: _ => MB_OVERHEAD <= st_boff st /\ st_boff st + st_left st = sz
           end;
  ar_left : 0 <= st_left st;
  ar_below : forall e n, used (st_root st) e n -> below st e n;
  ar_apart : forall a na b nb, used (st_root st) a na -> used (st_root st) b nb ->
               a = b \/ apart a na b nb
}.

Lemma nth_error_last : forall A (l : list A) x, rev l = x :: rev (removelast l) ->
  nth_error l (length l - 1) = Some x.
Proof.
  intros A l x H. destruct (exists_last (l := l)) as (l' & y & ->).
  { intros ->. discriminate. }
  rewrite rev_app_distr in H. simpl in H. injection H as -> _.
  rewrite app_length. simpl. rewrite Nat.add_sub. rewrite nth_error_app2 by lia.
  now rewrite Nat.sub_diag.
Qed.

Lemma cur_block : forall st, arena_ok st -> st_blocks st <> [] ->
  exists sz, nth_error (st_blocks st) (length (st_blocks st) - 1) = Some sz /\
    MB_OVERHEAD <= st_boff st /\ st_boff st + st_left st = sz.
Proof.
  intros st A H. pose proof (ar_cur st A) as C.
  destruct (exists_last H) as (l & x & E). rewrite E in *.
  rewrite rev_app_distr in C. simpl in C. exists x. split; [|exact C].
  rewrite app_length. simpl. rewrite Nat.add_sub, nth_error_app2 by lia. now rewrite Nat.sub_diag.
Qed.

Lemma align_up : forall b, 0 <= b ->
  let a := Z.land (SENT_ALIGN - Z.land b (SENT_ALIGN - 1)) (SENT_ALIGN - 1) in
  0 <= a < 8 /\ (b + a) mod 8 = 0.
Proof.
  intros b Hb a. unfold a, SENT_ALIGN. change (8 - 1) with (2 ^ 3 - 1).
  rewrite !land_mask by lia. change (2 ^ 3) with 8.
  split; [apply Z.mod_pos_bound; lia|].
  rewrite Z.add_mod_idemp_r by lia. pose proof (Z.mod_pos_bound b 8 ltac:(lia)).
  replace (b + (8 - b mod 8)) with (8 * (b / 8 + 1)) by (pose proof (Z.div_mod b 8); lia).
  rewrite Z.mul_comm. apply Z.mod_mul. lia.
Qed.

(* The state after newstring: the tree is unchanged, the new entry lies in the
   current block, right below backp. *)
Lemma newstring_ok : forall ps alloc st str st' n,
  arena_ok st -> 0 < ps -> 1 <= zlen str ->
  newstring ps alloc st str = Some (st', n) ->
  arena_ok st' /\ st_root st' = st_root st /\ st_total st' = st_total st /\
  st_null st' = st_null st /\ se_str n = str /\ st_blocks st' <> [] /\
  exists o, se_ptr n = EAt (length (st_blocks st') - 1) o /\ MB_OVERHEAD <= o /\ o mod SENT_ALIGN = 0 /\
    o + SENT_SIZE + zlen str = st_boff st' /\
    (forall e m, used (st_root st) e m -> exists k oo, se_ptr e = EAt k oo /\
        (k = (length (st_blocks st') - 1)%nat -> oo + m <= o)).
Proof.
  intros ps alloc st str st' n A Hps Hlen E. unfold newstring in E.
  set (a := Z.land _ _) in E.
  destruct (st_left st <? a + SENT_SIZE + zlen str) eqn:Ef; cbn [negb] in E.
  - (* new block *)
    destruct (morememory ps alloc st (SENT_SIZE + zlen str)) as [st1|] eqn:Em; [|discriminate].
    unfold morememory in Em.
    set (len := SENT_SIZE + zlen str + (MB_OVERHEAD + MALLOC_OVERHEAD)) in Em.
    set (bl := (len / ps + (if len mod ps =? 0 then 0 else 1)) * ps - MALLOC_OVERHEAD) in Em.
    destruct (alloc bl); [|discriminate]. injection Em as <-.
    remember (0 + SENT_SIZE + zlen str) as tot eqn:Htot in E. injection E as <- <-.
    cbn [st_root st_blocks st_boff st_left st_total st_null bump].
    assert (Hbl : len - MALLOC_OVERHEAD <= bl).
    { unfold bl. pose proof (Z.div_mod len ps ltac:(lia)).
      pose proof (Z.mod_pos_bound len ps Hps).
      destruct (Z.eqb_spec (len mod ps) 0); lia. }
    unfold len, SENT_SIZE, MB_OVERHEAD, MALLOC_OVERHEAD, SENT_ALIGN in *.
    assert (Hbw : forall e m, used (st_root st) e m -> exists k oo, se_ptr e = EAt k oo /\
                    8 <= oo /\ oo mod 8 = 0 /\ (k < length (st_blocks st))%nat /\
                    exists sz, nth_error (st_blocks st) k = Some sz /\ oo + m <= sz).
    { intros e m U. destruct (ar_below st A e m U) as (k & oo & H1 & H2 & H3 & H4 & H5 & H6).
      unfold MB_OVERHEAD, SENT_ALIGN in *. exists k, oo. tauto. }
    split; [constructor; cbn [st_root st_blocks st_boff st_left bump]|].
    + rewrite rev_app_distr. cbn [rev app]. unfold MB_OVERHEAD. lia.
    + lia.
    + intros e m U. destruct (Hbw e m U) as (k & oo & H1 & H2 & H3 & H4 & sz & H5 & H6).
      exists k, oo. cbn [st_blocks st_boff bump]. rewrite app_length. simpl.
      unfold MB_OVERHEAD, SENT_ALIGN.
      split; [exact H1|]. split; [exact H2|]. split; [exact H3|]. split; [lia|]. split; [|intros; lia].
      exists sz. split; [|exact H6]. rewrite nth_error_app1 by lia. exact H5.
    + exact (ar_apart st A).
    + cbn [se_str se_ptr]. repeat (split; [reflexivity|]).
      split; [destruct (st_blocks st); discriminate|].
      exists 8. repeat split; try lia.
      intros e m U. destruct (Hbw e m U) as (k & oo & H1 & H2 & H3 & H4 & _).
      exists k, oo. split; [exact H1|]. rewrite app_length. simpl. intros; lia.
  - injection E as <- <-. cbn [st_root st_blocks st_boff st_left st_total st_null bump se_str se_ptr].
    assert (Hne : st_blocks st <> []).
    { intros Hn. pose proof (ar_cur st A) as C. rewrite Hn in C. simpl in C. destruct C as [C1 C2].
      rewrite C2 in Ef. unfold SENT_SIZE in Ef.
      pose proof (align_up (st_boff st) ltac:(lia)) as [HH _]. fold a in HH. lia. }
    destruct (cur_block st A Hne) as (sz & N & C1 & C2).
    pose proof (align_up (st_boff st) ltac:(unfold MB_OVERHEAD in C1; lia)) as [Ha Hm]. fold a in Ha, Hm.
    unfold MB_OVERHEAD, SENT_SIZE, SENT_ALIGN in *.
    split; [constructor; cbn [st_root st_blocks st_boff st_left bump]|].
    + pose proof (ar_cur st A) as C. destruct (rev (st_blocks st)) as [|s ?] eqn:Er.
      * exfalso. apply Hne. rewrite <- (rev_involutive (st_blocks st)), Er. reflexivity.
      * unfold MB_OVERHEAD in *. lia.
    + lia.
    + intros e m U. destruct (ar_below st A e m U) as (k & oo & H1 & H2 & H3 & H4 & H5 & H6).
      exists k, oo. cbn [st_blocks st_boff bump]. repeat (split; [assumption|]). intros Hk. specialize (H6 Hk). lia.
    + exact (ar_apart st A).
    + repeat (split; [reflexivity|]). split; [exact Hne|]. exists (st_boff st + a).
      split; [reflexivity|]. split; [lia|]. split; [exact Hm|]. split; [lia|].
      intros e m U. destruct (ar_below st A e m U) as (k & oo & H1 & _ & _ & _ & _ & H6).
      exists k, oo. split; [exact H1|]. intros Hk. specialize (H6 Hk). lia.
Qed.

Lemma arena_ext : forall st1 st2 n o (len : Z),
  arena_ok st1 -> st_blocks st1 <> [] -> 0 <= len ->
  se_ptr n = EAt (length (st_blocks st1) - 1) o -> MB_OVERHEAD <= o -> o mod SENT_ALIGN = 0 ->
  (forall e m, used (st_root st1) e m -> exists k oo, se_ptr e = EAt k oo /\
        (k = (length (st_blocks st1) - 1)%nat -> oo + m <= o)) ->
  st_blocks st2 = st_blocks st1 -> o <= st_boff st2 <= st_boff st1 ->
  st_boff st2 + st_left st2 = st_boff st1 + st_left st1 ->
  (forall e m, used (st_root st2) e m ->
     used (st_root st1) e m \/ (e = n /\ 0 <= m /\ o + m <= st_boff st2)) ->
  arena_ok st2.
Proof.
  intros st1 st2 n o len A Hne Hlen Hp Ho Hal Hold Hb Hbo Hleft Hused.
  destruct (cur_block st1 A Hne) as (sz & N & C1 & C2).
  pose proof (ar_left st1 A) as HL. 
  constructor.
  - rewrite Hb. pose proof (ar_cur st1 A) as C. destruct (rev (st_blocks st1)) as [|s ?] eqn:Er.
    + exfalso. apply Hne. rewrite <- (rev_involutive (st_blocks st1)), Er. reflexivity.
    + lia.
  - lia.
  - intros e m U. destruct (Hused e m U) as [U1|(-> & Hm & Hom)].
    + destruct (ar_below st1 A e m U1) as (k & oo & H1 & H2 & H3 & H4 & H5 & H6).
      destruct (Hold e m U1) as (k' & oo' & H1' & H6').
      rewrite H1 in H1'. injection H1' as <- <-.
      exists k, oo. rewrite Hb. repeat (split; [assumption|]). intros Hk. specialize (H6' Hk). lia.
    + exists (length (st_blocks st1) - 1)%nat, o. rewrite Hb.
      split; [exact Hp|]. split; [exact Ho|]. split; [exact Hal|].
      split; [destruct (st_blocks st1); [congruence|simpl; lia]|].
      split; [exists sz; split; [exact N|lia]|]. intros _. lia.
  - assert (Hno : forall b nb ma, used (st_root st1) b nb -> apart n ma b nb).
    { intros b nb ma U. destruct (Hold b nb U) as (k & oo & H1 & H2).
      unfold apart, disjoint. rewrite Hp, H1.
      destruct (Nat.eq_dec k (length (st_blocks st1) - 1)); [right; right; auto|left; congruence]. }
    intros a na b nb Ua Ub.
    destruct (Hused a na Ua) as [U1|(-> & Ha & Ha')]; destruct (Hused b nb Ub) as [U2|(-> & Hb1 & Hb2)].
    + exact (ar_apart st1 A a na b nb U1 U2).
    + right. specialize (Hno a na nb U1). unfold apart, disjoint in *.
      rewrite Hp in *. destruct (se_ptr a); tauto || (destruct Hno as [H|[H|H]]; auto).
    + right. auto.
    + now left.
Qed.

Definition hist := list (bytes * eptr).

Record sinv (st : strtab) (h : hist) : Prop := {
  si_swf : swf (st_root st);
  si_arena : arena_ok st;
  si_total : st_total st = node_total (nodes (st_root st));
  si_live : forall x, In x (entries (st_root st)) -> In (se_str x, se_ptr x) h;
  si_null : st_null st = true -> forall x, In x (entries (st_root st)) -> se_len x <> 1;
  si_hist : forall s p, In (s, p) h ->
     (s = [0] /\ p = ENull /\ st_null st = true) \/
     exists x, In x (entries (st_root st)) /\ se_str x = s /\ se_ptr x = p
}.

Lemma init_inv : forall nul, sinv (strtab_init nul) [].
Proof.
  intros nul. constructor; simpl; try tauto.
  constructor; simpl; try tauto; try lia.
  - intros e n [[[] _]|[[] _]].
  - intros a na b nb [[[] _]|[[] _]].
Qed.

Lemma one_nul : forall s, c_string s -> zlen s = 1 -> s = [0].
Proof.
  intros s [b ->] H. rewrite zlen_app, zlen_cons, zlen_nil in H.
  destruct b; [reflexivity|]. rewrite zlen_cons in H. pose proof (zlen_nonneg _ b). lia.
Qed.

Lemma add_ok : forall ps alloc st h s,
  sinv st h -> 0 < ps -> c_string s ->
  exists st' r, strtab_add ps alloc st s = Ok (st', r) /\ st_null st' = st_null st /\
    match r with None => st' = st | Some p => sinv st' (h ++ [(s, p)]) end.
Proof.
  intros ps alloc st h s I Hps Hs.
  assert (Hlen : 1 <= zlen s).
  { destruct Hs as [b ->]. rewrite zlen_app, zlen_cons, zlen_nil. pose proof (zlen_nonneg _ b). lia. }
  unfold strtab_add. replace (zlen s =? 0) with false by lia.
  destruct ((zlen s =? 1) && st_null st) eqn:En.
  - exists st, (Some ENull). split; [reflexivity|]. split; [reflexivity|].
    apply andb_true_iff in En. destruct En as [E1 E2]. apply Z.eqb_eq in E1.
    destruct I as [I1 I2 I3 I4 I5 I6]. constructor; auto.
    + intros x Hx. rewrite in_app_iff. auto.
    + intros s' p Hin. rewrite in_app_iff in Hin. destruct Hin as [Hin|[Hin|[]]]; [auto|].
      injection Hin as <- <-. left. split; [now apply one_nul|auto].
  - destruct (newstring ps alloc st s) as [[st1 n]|] eqn:E.
    2:{ exists st, None. auto. }
    destruct (newstring_ok _ _ _ _ _ _ (si_arena _ _ I) Hps Hlen E)
      as (A1 & R1 & T1 & N1 & S1 & B1 & o & P1 & O1 & O2 & O3 & O4).
    assert (Gn : good n) by (unfold good; rewrite S1; exact Hs).
    rewrite R1. pose proof (insert_ok (st_root st) n (si_swf _ _ I) Gn) as HI.
    destruct (strtab_insert (st_root st) n) as [t a]. destruct HI as [Wt HI].
    rewrite <- R1 in O4.
    assert (Hnn : st_null st = true -> se_len n <> 1).
    { intros Ht. unfold se_len. rewrite S1. rewrite Ht, andb_true_r in En. lia. }
    assert (Hl : se_len n = zlen s) by (unfold se_len; now rewrite S1).
    (* the cases that add n *)
    assert (Add : forall tot st2, Permutation (entries t) (n :: entries (st_root st)) ->
       st_root st2 = t -> st_total st2 = tot -> st_null st2 = st_null st1 ->
       st_blocks st2 = st_blocks st1 -> o + SENT_SIZE <= st_boff st2 <= st_boff st1 ->
       st_boff st2 + st_left st2 = st_boff st1 + st_left st1 ->
       (forall e, In e (nodes t) -> In e (nodes (st_root st)) \/ (e = n /\ st_boff st2 = st_boff st1)) ->
       tot = node_total (nodes t) -> sinv st2 (h ++ [(s, se_ptr n)])).
    { intros tot st2 Pm E1 E2 E3 E4 E5 E6 Hnodes Htot.
      constructor.
      - now rewrite E1.
      - apply (arena_ext st1 st2 n o (zlen s)); auto; try lia.
        + unfold SENT_SIZE in *. lia.
        + rewrite E1, R1. intros e m [[He ->]|[He ->]].
          * apply (Permutation_in _ Pm) in He. destruct He as [<-|He]; [right|left; left; auto].
            split; [reflexivity|]. unfold SENT_SIZE in *. lia.
          * destruct (Hnodes e He) as [He'|[-> Eb]]; [left; right; auto|right].
            split; [reflexivity|]. rewrite Hl. unfold SENT_SIZE in *. lia.
      - rewrite E1, E2. exact Htot.
      - rewrite E1. intros x Hx. apply (Permutation_in _ Pm) in Hx. rewrite in_app_iff.
        destruct Hx as [<-|Hx]; [right; left; congruence|left; apply (si_live _ _ I); exact Hx].
      - rewrite E1, E3, N1. intros Ht x Hx. apply (Permutation_in _ Pm) in Hx.
        destruct Hx as [<-|Hx]; [auto|apply (si_null _ _ I); auto].
      - rewrite E1, E3, N1. apply Permutation_sym in Pm.
        intros s' p Hin. rewrite in_app_iff in Hin. destruct Hin as [Hin|[Hin|[]]].
        + destruct (si_hist _ _ I s' p Hin) as [H|(x & Hx & H)]; [left; exact H|right].
          exists x. split; [apply (Permutation_in _ Pm); now right|exact H].
        + injection Hin as <- <-. right. exists n. split; [apply (Permutation_in _ Pm); now left|auto]. }
    (* the cases that find an old entry *)
    assert (Old : forall x, In x (entries (st_root st)) -> se_str x = se_str n ->
       sinv (unalloc st1 n) (h ++ [(s, se_ptr x)])).
    { intros x Hx Es. unfold unalloc. rewrite P1.
      constructor; cbn [bump st_root st_total st_null st_blocks st_boff st_left]; rewrite ?R1, ?N1, ?T1.
      - exact (si_swf _ _ I).
      - apply (arena_ext st1 (bump st1 (o - st_boff st1)) n o (zlen s)); auto;
          cbn [bump st_root st_total st_null st_blocks st_boff st_left]; try lia.
        unfold SENT_SIZE in *. lia.
      - exact (si_total _ _ I).
      - intros y Hy. rewrite in_app_iff. left. apply (si_live _ _ I); exact Hy.
      - exact (si_null _ _ I).
      - intros s' p Hin. rewrite in_app_iff in Hin. destruct Hin as [Hin|[Hin|[]]].
        + exact (si_hist _ _ I s' p Hin).
        + injection Hin as <- <-. right. exists x. split; [exact Hx|]. split; [congruence|reflexivity]. }
    assert (Htot : st_total st1 = node_total (nodes (st_root st))) by (rewrite T1; apply (si_total _ _ I)).
    assert (HL : 0 <= st_left st1) by apply (ar_left _ A1).
    destruct a as [|x| |old|x]; cbn [set_tree st_null].
    + destruct HI as [H1 H2]. eexists _, _. split; [reflexivity|]. split; [exact N1|].
      apply (Add (st_total st1 + zlen s)); auto; cbn [set_tree st_boff st_left]; try lia.

      * intros e He. apply (Permutation_in _ H2) in He. destruct He as [<-|He]; auto.
      * rewrite (node_total_perm _ _ H2). cbn [node_total fold_right]. fold (node_total (nodes (st_root st))). lia.
    + destruct HI as (-> & H1 & H2). eexists _, _. split; [reflexivity|].
      split; [unfold unalloc; rewrite P1; exact N1|]. auto.
    + destruct HI as [H1 H2]. eexists _, _. split; [reflexivity|]. split; [exact N1|].
      apply (Add (st_total st1)); auto; cbn [set_tree bump st_boff st_left]; try lia.
      * intros e He. rewrite H2 in He. auto.
      * rewrite H2. exact Htot.
    + destruct HI as (H1 & e0 & rest & H2 & H3 & H4). eexists _, _. split; [reflexivity|]. split; [exact N1|].
      apply (Add (st_total st1 + (zlen s - old))); auto; cbn [set_tree st_boff st_left]; try lia.

      * intros e He. apply (Permutation_in _ H3) in He. destruct He as [<-|He]; [auto|left].
        apply Permutation_sym in H2. apply (Permutation_in _ H2). now right.
      * rewrite (node_total_perm _ _ H3). rewrite Htot, (node_total_perm _ _ H2).
        cbn [node_total fold_right]. fold (node_total rest). lia.
    + destruct HI as (-> & H1 & H2). eexists _, _. split; [reflexivity|].
      split; [unfold unalloc; rewrite P1; exact N1|]. auto.
Qed.

Lemma adds_ok : forall l ps st h, sinv st h -> 0 < ps ->
  Forall (fun x => c_string (fst x)) l ->
  exists st' es, strtab_adds ps st l = Ok (st', es) /\ st_null st' = st_null st /\
    length es = length l /\ sinv st' (h ++ added l es).
Proof.
  induction l as [|[s al] l IH]; intros ps st h I Hps Hf.
  - exists st, []. rewrite app_nil_r. auto.
  - inversion Hf as [|? ? Hs Hr]; subst. cbn [fst] in Hs.
    destruct (add_ok ps al st h s I Hps Hs) as (st1 & r & E & N & P).
    cbn [strtab_adds]. rewrite E. cbn [obind].
    destruct r as [p|].
    + destruct (IH ps st1 _ P Hps Hr) as (st2 & es & E2 & N2 & L2 & I2). rewrite E2. cbn [obind].
      exists st2, (Some p :: es). split; [reflexivity|]. split; [congruence|]. split; [simpl; lia|].
      cbn [added]. rewrite <- app_assoc in I2. exact I2.
    + subst st1. destruct (IH ps st _ I Hps Hr) as (st2 & es & E2 & N2 & L2 & I2). rewrite E2. cbn [obind].
      exists st2, (None :: es). split; [reflexivity|]. split; [congruence|]. split; [simpl; lia|].
      exact I2.
Qed.

Lemma eptr_eqb_spec : forall a b, eptr_eqb a b = true <-> a = b.
Proof.
  intros [|i x] [|j y]; simpl; split; try congruence; try discriminate.
  - intros H. apply andb_true_iff in H. destruct H as [H1 H2].
    apply Nat.eqb_eq in H1. apply Z.eqb_eq in H2. congruence.
  - intros H. injection H as -> ->. now rewrite Nat.eqb_refl, Z.eqb_refl.
Qed.

Lemma strent_off_in : forall offs p o, NoDup (map fst offs) -> In (p, o) offs -> strent_off offs p = o.
Proof.
  induction offs as [|[q o'] offs IH]; intros p o Nd H; [destruct H|].
  cbn [strent_off]. simpl in Nd. inversion Nd as [|? ? Hn Hd]; subst. destruct H as [H|H].
  - injection H as -> ->. now rewrite (proj2 (eptr_eqb_spec p p) eq_refl).
  - destruct (eptr_eqb p q) eqn:E; [|auto]. apply eptr_eqb_spec in E. subst q. exfalso. apply Hn.
    apply in_map_iff. exists (p, o). auto.
Qed.

Lemma strent_off_notin : forall offs p, ~ In p (map fst offs) -> strent_off offs p = 0.
Proof.
  induction offs as [|[q o'] offs IH]; intros p H; [reflexivity|]. cbn [strent_off]. simpl in H.
  destruct (eptr_eqb p q) eqn:E; [apply eptr_eqb_spec in E; exfalso; apply H; left; auto|]. apply IH. tauto.
Qed.

(* live entries have different addresses *)
Lemma ptr_inj : forall st h a b, sinv st h ->
  In a (entries (st_root st)) -> In b (entries (st_root st)) -> se_ptr a = se_ptr b -> a = b.
Proof.
  intros st h a b I Ha Hb E.
  destruct (ar_apart _ (si_arena _ _ I) a SENT_SIZE b SENT_SIZE) as [H|H];
    [left; auto|left; auto|exact H|].
  exfalso. unfold apart, disjoint in H. rewrite E in H. destruct (se_ptr b); [exact H|].
  unfold SENT_SIZE in H. destruct H as [H|[H|H]]; [congruence|lia|lia].
Qed.

Lemma ptr_nodup : forall st h, sinv st h -> NoDup (map se_ptr (entries (st_root st))).
Proof.
  intros st h I. pose proof (swf_nodup_keys _ (si_swf _ _ I)) as Nd.
  pose proof (fun a b => ptr_inj st h a b I) as Inj.
  remember (entries (st_root st)) as l eqn:El. clear El.
  induction l as [|x l IH]; [constructor|]. simpl in Nd. inversion Nd as [|? ? Hn Hd]; subst.
  simpl. constructor.
  - intros H. apply in_map_iff in H. destruct H as (y & Ey & Hy).
    assert (x = y) by (apply Inj; simpl; auto). subst y. apply Hn. apply in_map_iff. eauto.
  - apply IH; [exact Hd|]. intros a b Ha Hb. apply Inj; simpl; auto.
Qed.

Lemma finalize_ok : forall st h, sinv st h ->
  exists buf offs, strtab_finalize st = Ok (buf, offs) /\
    zlen buf = node_total (nodes (st_root st)) + (if st_null st then 1 else 0) /\
    (st_null st = true -> znth buf 0 = Some 0) /\
    forall s p, In (s, p) h ->
      let o := strent_off offs p in
      0 <= o /\ o + zlen s <= zlen buf /\ zsub buf o (zlen s) = s /\
      (st_null st = true -> s = [0] -> o = 0).
Proof.
  intros st h I. unfold strtab_finalize.
  set (nl := if st_null st then 1 else 0).
  assert (Hnl : 0 <= nl <= 1) by (unfold nl; destruct (st_null st); lia).
  destruct (copy_ok (st_root st) nl (si_swf _ _ I) ltac:(lia)) as (b & offs & E & L & F & C).
  rewrite E. cbn [obind].
  set (pre := if st_null st then [0] else []).
  assert (Hpre : zlen pre = nl) by (unfold pre, nl; destruct (st_null st); reflexivity).
  rewrite (si_total _ _ I), zlen_app, Hpre, L.
  replace (node_total (nodes (st_root st)) + nl <? nl + node_total (nodes (st_root st))) with false by lia.
  replace (nl + node_total (nodes (st_root st)) =? node_total (nodes (st_root st)) + nl) with true by lia.
  cbn [negb]. exists (pre ++ b), offs. split; [reflexivity|].
  split; [rewrite zlen_app; lia|].
  split; [intros Ht; unfold pre; rewrite Ht; reflexivity|].
  pose proof (ptr_nodup st h I) as Nd. rewrite <- F in Nd.
  intros s p Hin.
  destruct (si_hist _ _ I s p Hin) as [(-> & -> & Ht)|(x & Hx & <- & <-)].
  - rewrite strent_off_notin.
    2:{ rewrite F. intros H. apply in_map_iff in H. destruct H as (x & Ex & Hx).
        destruct (ar_below _ (si_arena _ _ I) x SENT_SIZE) as (k & oo & H1 & _); [left; auto|congruence]. }
    unfold pre, nl in *. rewrite Ht in *. split; [lia|].
    split; [rewrite !zlen_app, !zlen_cons, zlen_nil; pose proof (zlen_nonneg _ b); lia|].
    split; [reflexivity|auto].
  - destruct (C x Hx) as (o & Ho & H1 & H2 & H3).
    rewrite (strent_off_in _ _ _ Nd Ho). fold (se_len x).
    split; [lia|]. split; [rewrite zlen_app; lia|]. split.
    + specialize (H3 pre [] Hpre). rewrite app_nil_r in H3. exact H3.
    + intros Ht Es. exfalso. apply (si_null _ _ I Ht x Hx). unfold se_len. rewrite Es. reflexivity.
Qed.

Lemma node_total_strs : forall l, node_total l = total_length (map se_str l).
Proof. induction l as [|x l IH]; [reflexivity|]. cbn [node_total total_length map fold_right]. 
  fold (node_total l) (total_length (map se_str l)). unfold se_len. lia. Qed.

Lemma suffix_len_eq : forall s t, suffix s t -> zlen s = zlen t -> s = t.
Proof.
  intros s t [p ->] H. rewrite zlen_app in H. destruct p; [reflexivity|].
  rewrite zlen_cons in H. pose proof (zlen_nonneg _ p). lia.
Qed.

Lemma suffix_len : forall s t, suffix s t -> zlen s <= zlen t.
Proof. intros s t [p ->]. rewrite zlen_app. pose proof (zlen_nonneg _ p). lia. Qed.

Lemma NoDup_map_sub : forall A B (f : A -> B) (l l' : list A),
  NoDup (map f l) -> NoDup l' -> (forall x, In x l' -> In x l) -> NoDup (map f l').
Proof.
  intros A B f l l' H H' Hin.
  assert (Inj : forall a b, In a l -> In b l -> f a = f b -> a = b).
  { clear - H. induction l as [|x l IH]; [intros a b []|]. simpl in H. inversion H; subst.
    intros a b [<-|Ha] [<-|Hb] E; auto.
    - exfalso. apply H2. apply in_map_iff. eauto.
    - exfalso. apply H2. apply in_map_iff. exists a. auto. }
  induction l' as [|x l' IH]; [constructor|]. inversion H'; subst. simpl. constructor.
  - intros Hm. apply in_map_iff in Hm. destruct Hm as (y & E & Hy).
    assert (y = x) by (apply Inj; auto; apply Hin; simpl; auto). subst. tauto.
  - apply IH; auto. intros y Hy. apply Hin. simpl. auto.
Qed.

Lemma nodes_nodup : forall t, swf t -> NoDup (nodes t).
Proof.
  induction t as [|l IHl e subs r IHr]; intros W; [constructor|].
  destruct W as (Wl & Wr & Ge & _ & Hl & Hr). cbn [nodes].
  apply NoDup_app_intro; auto.
  - constructor; auto. intros H. apply nodes_entries in H. apply (rlt_irrefl (key e)), Hr, H.
  - intros x Hx [<-|Hx'].
    + apply nodes_entries in Hx. apply (rlt_irrefl (key e)), Hl, Hx.
    + apply nodes_entries in Hx, Hx'. apply (rlt_irrefl (key x)).
      eapply rlt_trans; [apply Hl, Hx|apply Hr, Hx'].
Qed.

Lemma NoDup_map_inv' : forall A B (f : A -> B) l, NoDup (map f l) -> NoDup l.
Proof.
  induction l as [|x l IH]; intros H; [constructor|]. simpl in H. inversion H; subst.
  constructor; auto. intros Hin. apply H2. now apply in_map.
Qed.

Lemma strs_nodup : forall t, swf t -> NoDup (map se_str (entries t)).
Proof.
  intros t W. pose proof (swf_nodup_keys t W) as H.
  assert (G : forall x, In x (entries t) -> good x) by (intros; eapply swf_good; eauto).
  remember (entries t) as l eqn:El. clear El W t.
  induction l as [|x l IH]; [constructor|]. simpl in H. inversion H as [|? ? Hn Hd]; subst.
  simpl. constructor.
  - intros Hm. apply in_map_iff in Hm. destruct Hm as (y & E & Hy). apply Hn.
    apply in_map_iff. exists y. split; [unfold key; now rewrite E|exact Hy].
  - apply IH; auto. intros y Hy. apply G. simpl; auto.
Qed.

(* the tree nodes are the maximal strings *)
Lemma nodes_maximal : forall st h, sinv st h -> forall s,
  In s (map se_str (nodes (st_root st))) <->
  maximal_string (filter (fun t => negb (st_null st && (zlen t =? 1))) (map fst h)) s.
Proof.
  intros st h I s.
  pose proof (si_swf _ _ I) as W.
  set (F := fun t : bytes => negb (st_null st && (zlen t =? 1))).
  assert (HE : forall t, In t (filter F (map fst h)) <-> exists x, In x (entries (st_root st)) /\ se_str x = t).
  { intros t. rewrite filter_In, in_map_iff. split.
    - intros [([t' p] & E & Hin) Hf]. cbn [fst] in E. subst t'.
      destruct (si_hist _ _ I t p Hin) as [(-> & _ & Ht)|(x & Hx & E & _)]; [|eauto].
      unfold F in Hf. rewrite Ht in Hf. discriminate.
    - intros (x & Hx & <-). split; [exists (se_str x, se_ptr x); split; [reflexivity|apply (si_live _ _ I); auto]|].
      unfold F. fold (se_len x). destruct (st_null st) eqn:Ht; [|reflexivity].
      pose proof (si_null _ _ I Ht x Hx). cbn [andb]. replace (se_len x =? 1) with false by lia. reflexivity. }
  assert (G : forall x, In x (entries (st_root st)) -> good x) by (intros; eapply swf_good; eauto).
  split.
  - intros H. apply in_map_iff in H. destruct H as (x & <- & Hx).
    pose proof (nodes_entries _ _ Hx) as Hx'.
    split; [apply HE; eauto|]. intros t Ht [Hs Hne]. apply HE in Ht. destruct Ht as (y & Hy & <-).
    destruct (entries_under_node _ y W Hy) as (z & Hz & Pz & Hyz).
    pose proof (nodes_entries _ _ Hz) as Hz'.
    assert (Pxy : prefix (key x) (key y)) by (apply prefix_suffix; auto).
    assert (x = z).
    { apply (nodes_incomparable (st_root st)); auto. destruct Pxy as [u Hu], Pz as [v Hv].
      exists (u ++ v). now rewrite Hv, Hu, app_assoc. }
    subst z. destruct Hyz as [->|Hlt]; [congruence|].
    apply suffix_len in Hs. unfold se_len in Hlt. lia.
  - intros [Hin Hmax]. apply HE in Hin. destruct Hin as (x & Hx & <-).
    destruct (entries_under_node _ x W Hx) as (z & Hz & Pz & Hxz).
    destruct Hxz as [->|Hlt]; [now apply in_map|].
    exfalso. pose proof (nodes_entries _ _ Hz) as Hz'. apply (Hmax (se_str z)).
    + apply HE. eauto.
    + split; [apply prefix_suffix; auto|]. intros E. unfold se_len in Hlt. rewrite E in Hlt. lia.
Qed.

Lemma hist_same_string : forall st h s p q, sinv st h -> In (s, p) h -> In (s, q) h -> p = q.
Proof.
  intros st h s p q I Hp Hq.
  pose proof (strs_nodup _ (si_swf _ _ I)) as Nd.
  destruct (si_hist _ _ I s p Hp) as [(E1 & -> & Ht)|(x & Hx & <- & <-)];
    destruct (si_hist _ _ I _ q Hq) as [(E2 & -> & Ht')|(y & Hy & Ey & <-)]; auto.
  - exfalso. apply (si_null _ _ I Ht y Hy). unfold se_len. rewrite Ey, E1. reflexivity.
  - exfalso. apply (si_null _ _ I Ht' x Hx). unfold se_len. rewrite E2. reflexivity.
  - f_equal. remember (entries (st_root st)) as l eqn:El. clear - Nd Hx Hy Ey.
    induction l as [|z l IH]; [destruct Hx|]. simpl in Nd. inversion Nd; subst.
    destruct Hx as [->|Hx]; destruct Hy as [->|Hy]; auto.
    + exfalso. apply H1. rewrite <- Ey. now apply in_map.
    + exfalso. apply H1. rewrite Ey. now apply in_map.
Qed.
