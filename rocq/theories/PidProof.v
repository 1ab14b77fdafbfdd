(* Proofs about reading a live process. *)
From Verif Require Import Base Eval2Proof CoreProof PidModel PidSpec.

Lemma fetch_some : forall mem n a b, fetch mem a n = Some b -> zlen b = Z.of_nat n /\ bytes_at mem a b.
Proof.
  intros mem n. induction n as [|n IH]; intros a b H; cbn in H.
  - injection H as <-. split; [reflexivity|]. intros k K. rewrite zlen_nil in K. lia.
  - destruct (mem a) as [x|] eqn:M; [|discriminate]. destruct (fetch mem (a + 1) n) as [r|] eqn:F; [|discriminate]. injection H as <-.
    destruct (IH _ _ F) as (L & B). split; [rewrite zlen_cons; lia|]. intros k K. rewrite zlen_cons in K. destruct (Z.eq_dec k 0) as [-> | Nk].
    + rewrite Z.add_0_r, M. unfold znth. rewrite zlen_cons. replace ((0 <=? 0) && (0 <? 1 + zlen r)) with true by lia. reflexivity.
    + specialize (B (k - 1) ltac:(lia)). replace (a + 1 + (k - 1)) with (a + k) in B by lia. rewrite B. unfold znth. rewrite zlen_cons.
      replace ((0 <=? k) && (k <? 1 + zlen r)) with true by lia. replace ((0 <=? k - 1) && (k - 1 <? zlen r)) with true by lia.
      replace (Z.to_nat k) with (S (Z.to_nat (k - 1))) by lia. reflexivity.
Qed.
Lemma fetch_none : forall mem n a, fetch mem a n = None -> exists k, 0 <= k < Z.of_nat n /\ mem (a + k) = None.
Proof.
  intros mem n. induction n as [|n IH]; intros a H; cbn [fetch] in H; [discriminate|].
  destruct (mem a) as [x|] eqn:M; [|exists 0; rewrite Z.add_0_r; split; [lia | exact M]].
  destruct (fetch mem (a + 1) n) as [r|] eqn:F; [discriminate|]. destruct (IH _ F) as (k & K & Mk). exists (k + 1). split; [lia|].
  rewrite <- Mk. f_equal. lia.
Qed.
Lemma nth_in : forall (A : Type) (l : list A) k, 0 <= k < zlen l -> exists x, znth l k = Some x /\ In x l.
Proof.
  intros A l k K. unfold znth. replace ((0 <=? k) && (k <? zlen l)) with true by lia.
  destruct (nth_error l (Z.to_nat k)) as [x|] eqn:E; [exists x; split; [reflexivity | exact (nth_error_In _ _ E)]|].
  apply nth_error_None in E. unfold zlen in K. lia.
Qed.
Lemma sub_at : forall mem a b o n, bytes_at mem a b -> 0 <= o -> 0 <= n -> o + n <= zlen b -> zlen (zsub b o n) = n /\ bytes_at mem (a + o) (zsub b o n).
Proof.
  intros mem a b o n B O N L. assert (Z : zlen (zsub b o n) = n) by (rewrite zlen_zsub by lia; lia). split; [exact Z|].
  intros k K. rewrite Z in K. destruct (nth_in _ (zsub b o n) k ltac:(lia)) as (x & X & _). rewrite X.
  apply zn_zsub in X; [|lia|lia]. destruct X as (_ & X). rewrite <- Z.add_assoc, B by lia. exact X.
Qed.
Lemma at_readable : forall mem a b, bytes_at mem a b -> readable mem a (zlen b).
Proof. intros mem a b B k K. rewrite B by exact K. destruct (nth_in _ b k K) as (x & -> & _). discriminate. Qed.
Lemma at_bytes : forall mem a b, byte_mem mem -> bytes_at mem a b -> bytes_ok b.
Proof.
  intros mem a b M B. apply Forall_forall. intros x I. apply In_nth_error in I. destruct I as (n & E).
  assert (L : (n < length b)%nat) by (apply nth_error_Some; congruence).
  assert (K : 0 <= Z.of_nat n < zlen b) by (unfold zlen; lia). pose proof (B _ K) as H. unfold znth in H.
  replace ((0 <=? Z.of_nat n) && (Z.of_nat n <? zlen b)) with true in H by lia. rewrite Nat2Z.id, E in H. exact (M _ _ H).
Qed.

Section h.
Variables (big vm class32 : bool).
(* the cache is what memory is *)
Definition cache_ok (mem : pmem) (c : cache) : Prop :=
  match c with None => True | Some (ca, b) => ca mod PG = 0 /\ zlen b = PG /\ bytes_at mem ca b end.

Lemma cached_ok : forall mem c a v c', cache_ok mem c -> read_cached big mem c a = (v, c') -> cache_ok mem c' /\
  match v with
  | Some v => exists b, zlen b = 8 /\ bytes_at mem a b /\ v = word big b
  | None => PG - 8 < a mod PG \/ ~ readable mem (a - a mod PG) PG
  end.
Proof.
  intros mem c a v c' C H. unfold read_cached in H. pose proof (Z.mod_pos_bound a PG eq_refl) as Mb. destruct (Z.ltb_spec (PG - 8) (a mod PG)) as [L | L].
  { injection H as <- <-. split; [exact C | left; exact L]. }
  assert (Miss : forall r, match fetch mem (a - a mod PG) (Z.to_nat PG) with
      | None => (None, None) | Some b => (Some (word big (zsub b (a - (a - a mod PG)) 8)), Some (a - a mod PG, b)) end = r -> r = (v, c') ->
      cache_ok mem c' /\ match v with Some v => exists b, zlen b = 8 /\ bytes_at mem a b /\ v = word big b | None => PG - 8 < a mod PG \/ ~ readable mem (a - a mod PG) PG end).
  { intros r <- E. destruct (fetch mem (a - a mod PG) (Z.to_nat PG)) as [b|] eqn:F.
    - injection E as <- <-. apply fetch_some in F. destruct F as (F1 & F2). rewrite Z2Nat.id in F1 by discriminate. split.
      + split; [|split; [exact F1 | exact F2]]. rewrite Zminus_mod, Zmod_mod, Z.sub_diag. reflexivity.
      + destruct (sub_at mem (a - a mod PG) b (a - (a - a mod PG)) 8 F2 ltac:(lia) ltac:(lia) ltac:(lia)) as (S1 & S2).
        replace (a - a mod PG + (a - (a - a mod PG))) with a in S2 by lia. eexists. split; [exact S1|]. split; [exact S2 | reflexivity].
    - injection E as <- <-. split; [exact I|]. right. intros R. apply fetch_none in F. destruct F as (k & K & Mk). rewrite Z2Nat.id in K by discriminate. exact (R k K Mk). }
  destruct c as [[ca b]|]; [|exact (Miss _ eq_refl H)].
  destruct ((ca <=? a) && (a - ca <? zlen b)) eqn:Hit; [|exact (Miss _ eq_refl H)].
  injection H as <- <-. split; [exact C|]. destruct C as (C1 & C2 & C3).
  assert (O : a - ca <= PG - 8).
  { assert (Q : (a - ca) mod PG = a mod PG) by (rewrite Zminus_mod, C1, Z.sub_0_r, Zmod_mod; reflexivity). rewrite Z.mod_small in Q by lia. lia. }
  destruct (sub_at mem ca b (a - ca) 8 C3 ltac:(lia) ltac:(lia) ltac:(lia)) as (S1 & S2). replace (ca + (a - ca)) with a in S2 by lia.
  eexists. split; [exact S1|]. split; [exact S2 | reflexivity].
Qed.

Lemma right_run : forall (P : pmem -> Prop) (good : pmem -> Z -> option Z -> Prop),
  (forall mem c a v c', P mem -> cache_ok mem c -> memory_read big vm class32 mem c a = (v, c') -> cache_ok mem c' /\ good mem a v) ->
  forall ops mem c, P mem -> all_mem P ops -> cache_ok mem c -> right good ops mem (run big vm class32 ops mem c).
Proof.
  intros P good H ops. induction ops as [|[a|m] ops IH]; intros mem c Pm Pa C; cbn [run right all_mem] in *; [exact I | |].
  - destruct (memory_read big vm class32 mem c a) as [v c'] eqn:E. destruct (H mem c a v c' Pm C E) as (C' & G). split; [exact G | exact (IH mem c' Pm Pa C')].
  - apply IH; [exact (proj1 Pa) | exact (proj2 Pa) | exact I].
Qed.
End h.

Lemma app_at : forall mem a b, zlen b = 8 -> bytes_at mem a b -> exists b1 b2, b = b1 ++ b2 /\ zlen b1 = 4 /\ zlen b2 = 4 /\ bytes_at mem a b1 /\ bytes_at mem (a + 4) b2.
Proof.
  intros mem a b L B. destruct (sub_at mem a b 0 4 B ltac:(lia) ltac:(lia) ltac:(lia)) as (S1 & S2). destruct (sub_at mem a b 4 4 B ltac:(lia) ltac:(lia) ltac:(lia)) as (S3 & S4).
  exists (zsub b 0 4), (zsub b 4 4). rewrite Z.add_0_r in S2. split; [|auto]. unfold zsub. cbn [Z.to_nat skipn]. change (Pos.to_nat 4) with 4%nat.
  rewrite (firstn_all2 (n := 4) (skipn 4 b)) by (rewrite skipn_length; unfold zlen in L; lia). symmetry. apply firstn_skipn.
Qed.
Lemma be_app : forall a b, be_value (a ++ b) = be_value b + 256 ^ zlen b * be_value a.
Proof. intros a b. unfold be_value. rewrite rev_app_distr, le_value_app. unfold zlen. rewrite rev_length. reflexivity. Qed.
Lemma bound4 : forall b, bytes_ok b -> zlen b = 4 -> 0 <= le_value b < 2 ^ 32 /\ 0 <= be_value b < 2 ^ 32.
Proof.
  intros b O L. split.
  - pose proof (le_value_bound b O) as H. rewrite L in H. exact H.
  - pose proof (le_value_bound (rev b) (Forall_rev O)) as H. assert (R : zlen (rev b) = 4) by (unfold zlen in *; rewrite rev_length; exact L). rewrite R in H. exact H.
Qed.
(* the half of a word *)
Lemma half : forall (big : bool) (b1 b2 : bytes), bytes_ok b1 -> bytes_ok b2 -> zlen b1 = 4 -> zlen b2 = 4 ->
  (if big then word big (b1 ++ b2) / 2 ^ 32 else word big (b1 ++ b2)) mod 2 ^ 32 = word big b1 /\
  (if big then word big (b1 ++ b2) else word big (b1 ++ b2) / 2 ^ 32) mod 2 ^ 32 = word big b2.
Proof.
  intros big b1 b2 O1 O2 L1 L2. destruct (bound4 b1 O1 L1) as (A1 & A2). destruct (bound4 b2 O2 L2) as (A3 & A4). unfold word. destruct big.
  - rewrite be_app, L2. change (256 ^ 4) with (2 ^ 32). rewrite (Z.mul_comm (2 ^ 32)). split.
    + rewrite Z.div_add, Z.div_small, Z.add_0_l, Z.mod_small by lia. reflexivity.
    + rewrite Z_mod_plus_full, Z.mod_small by lia. reflexivity.
  - rewrite le_value_app, L1. change (256 ^ 4) with (2 ^ 32). rewrite (Z.mul_comm (2 ^ 32)). split.
    + rewrite Z_mod_plus_full, Z.mod_small by lia. reflexivity.
    + rewrite Z.div_add, Z.div_small, Z.add_0_l, Z.mod_small by lia. reflexivity.
Qed.
