(* Decoding the expressions of a section for the unwinder. *)
From Coq Require Import ZifyBool ZifyNat Sorted.
From Verif Require Import Base DwModel Slice LebProof CfiModel CfiSpec CfiProps LocModel EvalModel EvalSpec EvalProof Eval3Proof UnwindModel UnwindSpec.
From Verif Require LocSpec LocProps.

Lemma numbers_place : forall m x p q, LocSpec.op_ok m x ->
  LocSpec.numbers p (LocSpec.args x) = LocSpec.numbers q (LocSpec.args x) \/ In (LocSpec.opcode x) [158; 163; 243; 164; 244].
Proof.
  intros m [x l] p q (ks & SG & AB). cbn [LocSpec.opcode LocSpec.args] in *. destruct (LocProps.shapes _ _ SG) as [[-> N]|[(k & -> & O)|(k & k' & -> & O)]].
  - inversion AB; subst. left. reflexivity.
  - inversion AB as [|k0 a b ks0 l0 B AB']; subst. inversion AB'; subst. destruct B; try (left; reflexivity).
    + right. inversion O; subst. cbn in *. intuition.
    + right. inversion O.
  - inversion AB as [|k0 a b ks0 l0 B AB']; subst. inversion AB' as [|k1 a' b' ks1 l1 B' AB2]; subst. inversion AB2; subst. destruct B; try (exfalso; inversion O; fail); destruct B'; try (left; reflexivity).
    all: try (right; inversion O; subst; cbn in *; intuition; fail).
Qed.
Lemma means_other : forall x n k o i n' k', means (Op x n k o) i -> In x [158; 163; 243; 164; 244] -> means (Op x n' k' o) i.
Proof.
  intros x n k o i n' k' M X. assert (D : i = DOther).
  { remember (Op x n k o) as y eqn:Y. destruct M as [ |  | ? ? ? ? I |  |  |  |  |  |  |  |  |  |  |  |  |  |  |  |  | ? ? ? ? ? I |  |  |  |  |  | ]; apply (f_equal o_atom) in Y; cbn [o_atom] in Y; try reflexivity; exfalso; cbn [In] in X; try lia.
    - cbn [In] in I. lia.
    - cbn [In] in I. repeat (destruct I as [I|I]; [injection I; intros; lia|]). destruct I. }
  subst i. constructor. cbn [In] in X. lia.
Qed.
Lemma program_ops : forall m xs s o l, Forall (LocSpec.op_ok m) xs -> program o xs l ->
  Forall2 (fun y x => means y (snd x) /\ fst x = Some (o_off y)) (LocProps.ops_of s (s + o) xs) l.
Proof.
  intros m xs s. induction xs as [|x xs IH]; intros o l F P; inversion P; subst; cbn [LocProps.ops_of]; constructor.
  - inversion F as [|? ? OK _]; subst. cbn [snd fst o_off]. split; [|f_equal; lia]. replace (s + o - s) with o by lia.
    destruct (numbers_place m x (o + 1) (s + o + 1) OK) as [E|I]; [rewrite <- E; assumption|]. eapply means_other; eassumption.
  - inversion F; subst. replace (s + o + zlen (LocSpec.op_bytes x)) with (s + (o + zlen (LocSpec.op_bytes x))) by lia. apply IH; assumption.
Qed.
Lemma op_bytes_pos : forall x, 0 < zlen (LocSpec.op_bytes x).
Proof. intros x. unfold LocSpec.op_bytes. rewrite zlen_cons. pose proof (zlen_nonneg _ (concat (map snd (LocSpec.args x)))). lia. Qed.
Lemma expr_cons : forall x xs, zlen (LocSpec.expr_bytes (x :: xs)) = zlen (LocSpec.op_bytes x) + zlen (LocSpec.expr_bytes xs).
Proof. intros x xs. unfold LocSpec.expr_bytes. cbn [map concat]. apply zlen_app. Qed.
Lemma ops_bounds : forall s xs p, s <= p -> Forall (fun y => p - s <= o_off y < p - s + zlen (LocSpec.expr_bytes xs)) (LocProps.ops_of s p xs) /\ StronglySorted Z.lt (map o_off (LocProps.ops_of s p xs)).
Proof.
  intros s xs. induction xs as [|x xs IH]; intros p P; cbn [LocProps.ops_of map]; [split; constructor|]. pose proof (op_bytes_pos x). rewrite expr_cons. pose proof (zlen_nonneg _ (LocSpec.expr_bytes xs)).
  destruct (IH (p + zlen (LocSpec.op_bytes x)) ltac:(lia)) as [B SS]. split.
  - constructor; [cbn [o_off]; lia|]. eapply Forall_impl; [|exact B]. cbv beta. intros y Y. lia.
  - constructor; [exact SS|]. cbn [o_off]. apply Forall_map. eapply Forall_impl; [|exact B]. cbv beta. intros y Y. lia.
Qed.
(* an expression of the section and what the library makes of it *)
Lemma decode_expr : forall c b l p cf v, expression c b l -> at_ (c_mem c) p b -> zlen (c_mem c) < 2 ^ 62 ->
  exists ops, rep_ops c cf (Block p (zlen b) v) = Ok (Some ops) /\ ops <> [] /\
    stands_for ops (Prog ((if cf then [(None, DCfa)] else []) ++ l ++ (if v then [(None, DStackValue)] else [])) (zlen b) (if cf then 1 + zlen l else zlen l)).
Proof.
  intros c b l p cf v (xs & NE & OK & NI & -> & P) A SZ. destruct (at_bound _ _ _ A) as [P0 P1].
  assert (SZ' : LocProps.sizes (cfi_loc c)). { split; [cbn; unfold addr_width; destruct (c_c32 c); auto|]. split; [cbn; auto|]. cbn. lia. }
  assert (U : Forall (LocProps.usual (cfi_loc c)) xs).
  { eapply Forall_impl; [|exact NI]. intros x N. unfold needs_info in N. cbn [In] in N. repeat split; intros X; exfalso; apply N; cbn [In] in X; lia. }
  destruct (LocProps.C42_decode_partial (cfi_loc c) tree0 p xs cf v SZ' NE OK U A eq_refl) as (t' & E & _). cbn [rep_ops]. rewrite E. cbn [obind].
  eexists. split; [reflexivity|]. split.
  - unfold LocProps.delivered. destruct xs as [|x xs]; [congruence|]. cbn [LocProps.ops_of]. destruct cf; cbn; discriminate.
  - unfold LocProps.delivered. destruct (ops_bounds p xs p ltac:(lia)) as [B SS]. apply (sf_expr cf v (LocProps.ops_of p p xs) l (zlen (LocSpec.expr_bytes xs))); [|exact SS| |lia].
    + pose proof (program_ops _ _ p 0 l OK P) as F. rewrite Z.add_0_r in F. exact F.
    + eapply Forall_impl; [|exact B]. cbv beta. intros y Y. lia.
Qed.
