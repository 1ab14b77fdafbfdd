(* Proofs about RelocModel. *)
From Verif Require Import Base RelocModel RelocSpec.
From Verif Require SegProof.
From Coq Require Import ZifyBool ZifyNat.

Lemma zlen_put : forall t off b, 0 <= off -> off + zlen b <= zlen t -> zlen (put t off b) = zlen t.
Proof. intros t off b O L. unfold put, zlen in *. rewrite !app_length, firstn_length, skipn_length. lia. Qed.
Lemma put_outside : forall t off b i, 0 <= off -> off + zlen b <= zlen t -> ~ (off <= i < off + zlen b) -> znth (put t off b) i = znth t i.
Proof.
  intros t off b i O L I. destruct (Z_lt_ge_dec i 0) as [N|N]; [rewrite !znth_out by lia; reflexivity|]. destruct (Z_lt_ge_dec i (zlen t)) as [N2|N2]; [|rewrite !znth_out by (try rewrite zlen_put; lia); reflexivity].
  unfold znth. rewrite zlen_put by assumption. replace ((0 <=? i) && (i <? zlen t)) with true by lia. unfold put, zlen in *. destruct (Z_lt_ge_dec i off) as [C|C].
  - rewrite nth_error_app1 by (rewrite firstn_length; lia). rewrite <- (firstn_skipn (Z.to_nat off) t) at 2. rewrite nth_error_app1 by (rewrite firstn_length; lia). reflexivity.
  - rewrite nth_error_app2 by (rewrite firstn_length; lia). rewrite nth_error_app2 by (rewrite firstn_length; lia). rewrite firstn_length. transitivity (nth_error (firstn (Z.to_nat (off + Z.of_nat (length b))) t ++ skipn (Z.to_nat (off + Z.of_nat (length b))) t) (Z.to_nat i)); [|rewrite firstn_skipn; reflexivity]. rewrite (nth_error_app2 (firstn _ t)) by (rewrite firstn_length; lia). f_equal. rewrite firstn_length. lia.
Qed.
Lemma put_inside : forall t off b, 0 <= off -> off + zlen b <= zlen t -> zsub (put t off b) off (zlen b) = b.
Proof.
  intros t off b O L. unfold zsub, put, zlen in *. rewrite skipn_app, firstn_length. replace (Z.to_nat off - Nat.min (Z.to_nat off) (length t))%nat with 0%nat by lia. cbn [skipn]. rewrite skipn_all2 by (rewrite firstn_length; lia). cbn [app]. rewrite firstn_app. replace (Z.to_nat (Z.of_nat (length b)) - length b)%nat with 0%nat by lia. cbn [firstn]. rewrite app_nil_r, firstn_all2 by lia. reflexivity.
Qed.
Lemma enc_len : forall big n v, 0 <= n -> zlen (enc big n v) = n.
Proof. intros big n v N. unfold enc, zlen. destruct big; [rewrite be_bytes_length|rewrite le_bytes_length]; lia. Qed.
Lemma enc_number : forall big n v, 0 <= n -> number big (enc big n v) = v mod 256 ^ n.
Proof. intros big n v N. unfold number, enc. destruct big; [rewrite be_value_bytes|rewrite le_value_bytes]; rewrite Z2Nat.id by lia; reflexivity. Qed.
Lemma put_rewrites : forall big t off n v v', 0 <= n -> 0 <= off -> off + n <= zlen t -> v mod 256 ^ n = v' mod 256 ^ n -> rewrites big t (put t off (enc big n v)) off n v'.
Proof.
  intros big t off n v v' N O L E. pose proof (enc_len big n v N) as EL. split; [exact O|]. split; [exact L|]. split; [apply zlen_put; lia|]. split.
  - intros i I. apply put_outside; lia.
  - rewrite <- EL at 2. rewrite put_inside by lia. rewrite enc_number by exact N. exact E.
Qed.
Lemma u64_mod : forall x n, n = 1 \/ n = 2 \/ n = 4 \/ n = 8 -> u64 x mod 256 ^ n = x mod 256 ^ n.
Proof. intros x n H. unfold u64. assert (D : exists k, two64 = 256 ^ n * k /\ 0 < k). { destruct H as [->|[->|[->| ->]]]; [exists (2 ^ 56)|exists (2 ^ 48)|exists (2 ^ 32)|exists 1]; split; vm_compute; reflexivity. } destruct D as (k & -> & K). rewrite Z.rem_mul_r by lia. rewrite <- Z.add_mod_idemp_r by lia. rewrite Z.mul_comm, Z.mod_mul by lia. rewrite Z.add_0_r. apply Z.mod_mod. lia. Qed.

Lemma rsize_in : forall ty, rsize ty = 1 \/ rsize ty = 2 \/ rsize ty = 4 \/ rsize ty = 8.
Proof. intros []; cbn; lia. Qed.
Lemma s32_mod : forall x, s32 x mod two32 = x mod two32.
Proof. intro x. unfold s32. rewrite Zminus_mod_idemp_l. f_equal. lia. Qed.
Lemma s64_mod : forall x, s64 x mod two64 = x mod two64.
Proof. intro x. unfold s64. rewrite Zminus_mod_idemp_l. f_equal. lia. Qed.

Section one.
Variables (big : bool) (simple : Z -> option (rtype * Z)) (resolve : Z -> derr + Z) (rela : bool).
Notation relocate := (relocate big simple resolve rela).
Lemma relocate_ok : forall t r, 0 <= r_off r ->
  match relocate t r with
  | Ok (None, t') => applies big simple resolve rela t r t'
  | Ok (Some e, t') => t' = t /\ refuses simple resolve rela (zlen t) r e
  | UB => overflows big simple resolve rela t r
  | _ => False
  end.
Proof.
  intros t r O. unfold RelocModel.relocate. destruct (r_type r =? 0) eqn:T; [left; split; [lia|reflexivity]|]. destruct (simple (r_type r)) as [[ty addsub]|] eqn:S1; [|split; [reflexivity|split; [lia|left; auto]]].
  set (sv := if r_sym r =? 0 then inr 0 else resolve (r_sym r)). assert (SV : match sv with inl e => r_sym r <> 0 /\ resolve (r_sym r) = inl e | inr v => symbol_is resolve r v end).
  { unfold sv, symbol_is. destruct (r_sym r =? 0) eqn:Y; [left; split; [lia|reflexivity]|]. destruct (resolve (r_sym r)); [split; [lia|reflexivity]|right; split; [lia|reflexivity]]. }
  destruct sv as [e|v]; [split; [reflexivity|]; split; [lia|]; right; exists ty, addsub; split; [exact S1|left; exact SV]|].
  destruct (negb (addsub =? 0) && negb rela) eqn:AS; [split; [reflexivity|]; split; [lia|]; right; exists ty, addsub; split; [exact S1|]; right; exists v; split; [exact SV|left]; split; [lia|split; [destruct rela; [lia|reflexivity]|reflexivity]]|].
  destruct ((zlen t <? r_off r) || (zlen t - r_off r <? rsize ty)) eqn:B; [split; [reflexivity|]; split; [lia|]; right; exists ty, addsub; split; [exact S1|]; right; exists v; split; [exact SV|right]; pose proof (rsize_in ty); split; [lia|reflexivity]|].
  pose proof (rsize_in ty) as RS. change (get big (zsub t (r_off r) (rsize ty))) with (number big (zsub t (r_off r) (rsize ty))). set (old := number big (zsub t (r_off r) (rsize ty))).
  assert (PUT : forall x y, x mod 256 ^ rsize ty = y mod 256 ^ rsize ty -> y = (if rela then (if addsub =? 0 then v + r_add r else old + addsub * (v + r_add r)) else old + v) -> applies big simple resolve rela t r (put t (r_off r) (enc big (rsize ty) x))).
  { intros x y E ->. right. split; [lia|]. exists ty, addsub, v. split; [exact S1|]. split; [exact SV|]. apply put_rewrites; [lia|exact O|lia|exact E]. }
  destruct rela.
  - cbn [obind]. apply (PUT _ (if addsub =? 0 then v + r_add r else old + addsub * (v + r_add r))); [|reflexivity]. destruct (addsub =? 0); cbn [negb].
    + apply u64_mod. exact RS.
    + rewrite Z.add_mod by (destruct RS as [->|[->|[->| ->]]]; lia). rewrite (Z.mul_comm _ addsub). rewrite (Z.mul_mod addsub) by (destruct RS as [->|[->|[->| ->]]]; lia). rewrite u64_mod by exact RS. rewrite <- Z.mul_mod by (destruct RS as [->|[->|[->| ->]]]; lia). rewrite <- Z.add_mod by (destruct RS as [->|[->|[->| ->]]]; lia). reflexivity.
  - assert (OV : (ty = TSword /\ ~ (- two31 <= s32 old + s32 v < two31)) \/ (ty = TSxword /\ ~ (- two63 <= s64 old + s64 v < two63)) -> overflows big simple resolve false t r).
    { intro H. split; [reflexivity|]. exists ty, addsub, v. split; [exact S1|]. split; [exact SV|]. exact H. }
    destruct ty; cbn [add_in_place obind] in *; try (apply (PUT _ (old + v)); reflexivity).
    + cbv zeta. destruct ((- two31 <=? s32 old + s32 v) && (s32 old + s32 v <? two31)) eqn:R; cbn [obind]; [|apply OV; left; split; [reflexivity|lia]]. apply (PUT _ (old + v)); [|reflexivity]. change (256 ^ rsize TSword) with two32. rewrite Z.add_mod by lia. rewrite !s32_mod. rewrite <- Z.add_mod by lia. reflexivity.
    + cbv zeta. destruct ((- two63 <=? s64 old + s64 v) && (s64 old + s64 v <? two63)) eqn:R; cbn [obind]; [|apply OV; right; split; [reflexivity|lia]]. apply (PUT _ (old + v)); [|reflexivity]. change (256 ^ rsize TSxword) with two64. rewrite Z.add_mod by lia. rewrite !s64_mod. rewrite <- Z.add_mod by lia. reflexivity.
Qed.
Lemma relocate_same : forall t t' r e t1, relocate t r = Ok (Some e, t1) -> zlen t' = zlen t -> relocate t' r = Ok (Some e, t').
Proof.
  intros t t' r e t1. unfold RelocModel.relocate. intros H L. rewrite L. destruct (r_type r =? 0); [discriminate|]. destruct (simple (r_type r)) as [[ty addsub]|]; [|injection H as <- _; reflexivity]. destruct (if r_sym r =? 0 then inr 0 else resolve (r_sym r)) as [e1|v]; [injection H as <- _; reflexivity|]. destruct (negb (addsub =? 0) && negb rela); [injection H as <- _; reflexivity|]. destruct (_ || _); [injection H as <- _; reflexivity|]. destruct (if rela then _ else _) in H; try discriminate. 
Qed.
Lemma relocate_zero : forall t, relocate t zero_rel = Ok (None, t).
Proof. reflexivity. Qed.
Lemma relocate_err : forall t r e t1, relocate t r = Ok (Some e, t1) -> t1 = t /\ r_type r <> 0.
Proof.
  intros t r e t1. unfold RelocModel.relocate. intros H. destruct (r_type r =? 0) eqn:T; [discriminate|]. split; [|lia]. destruct (simple (r_type r)) as [[ty addsub]|]; [|injection H as _ <-; reflexivity]. destruct (if r_sym r =? 0 then inr 0 else resolve (r_sym r)) as [e1|v]; [injection H as _ <-; reflexivity|]. destruct (negb (addsub =? 0) && negb rela); [injection H as _ <-; reflexivity|]. destruct (_ || _); [injection H as _ <-; reflexivity|]. destruct (if rela then _ else _) in H; discriminate.
Qed.

(* the loop, with the entries as they are after it *)
Definition skipped (e : derr) : bool := match e with E_BADRELTYPE | E_RELUNDEF => true | _ => false end.
Inductive marks : bytes -> list rel -> bytes -> list rel -> Z -> Prop :=
| m_nil : forall t, marks t [] t [] 0
| m_apply : forall t r t1 rs t2 l n, relocate t r = Ok (None, t1) -> marks t1 rs t2 l n -> marks t (r :: rs) t2 (zero_rel :: l) (n + 1)
| m_skip : forall t r e rs t2 l n, relocate t r = Ok (Some e, t) -> skipped e = true -> marks t rs t2 l n -> marks t (r :: rs) t2 (r :: l) n.
Notation loop := (rel_loop big simple resolve rela false true).
Lemma loop_marks : forall rest first done c t, (forall r, In r rest -> 0 <= r_off r) ->
  match loop first done rest c t with
  | Ok (None, l, n, t') => exists l' k, l = rev done ++ l' /\ n = c + k /\ marks t rest t' l' k
  | Ok (Some e, l, _, t') => exists rs1 r rs2 l1 k, rest = rs1 ++ r :: rs2 /\ marks t rs1 t' l1 k /\ relocate t' r = Ok (Some e, t') /\ skipped e = false /\ l = rev done ++ l1 ++ r :: rs2
  | UB => exists rs1 r rs2 l1 k t1, rest = rs1 ++ r :: rs2 /\ marks t rs1 t1 l1 k /\ relocate t1 r = UB
  | _ => False
  end.
Proof.
  induction rest as [|r rest IH]; intros first done c t NN; cbn [rel_loop].
  - exists [], 0. split; [rewrite app_nil_r; reflexivity|]. split; [lia|constructor].
  - pose proof (relocate_ok t r (NN r (or_introl eq_refl))) as OK. assert (NN' : forall r, In r rest -> 0 <= r_off r) by (intros x X; apply NN; right; exact X). destruct (relocate t r) as [[res t1]|e| |] eqn:E; try contradiction; cbn [obind].
    2:{ exists [], r, rest, [], 0, t. split; [reflexivity|]. split; [constructor|exact E]. }
    rewrite andb_false_r.
    assert (STEP : forall d l0, (forall t' l' k, marks (match res with None => t1 | Some _ => t end) rest t' l' k -> marks t (r :: rest) t' (l0 :: l') (k + d)) -> (forall rs1 t' l' k, marks (match res with None => t1 | Some _ => t end) rs1 t' l' k -> marks t (r :: rs1) t' (l0 :: l') (k + d)) ->
      match loop false (l0 :: done) rest (c + d) (match res with None => t1 | Some _ => t end) with
      | Ok (None, l, n, t') => exists l' k, l = rev done ++ l' /\ n = c + k /\ marks t (r :: rest) t' l' k
      | Ok (Some e, l, _, t') => exists rs1 r0 rs2 l1 k, r :: rest = rs1 ++ r0 :: rs2 /\ marks t rs1 t' l1 k /\ relocate t' r0 = Ok (Some e, t') /\ skipped e = false /\ l = rev done ++ l1 ++ r0 :: rs2
      | UB => exists rs1 r0 rs2 l1 k t1, r :: rest = rs1 ++ r0 :: rs2 /\ marks t rs1 t1 l1 k /\ relocate t1 r0 = UB
      | _ => False
      end).
    { intros d l0 M1 M2. specialize (IH false (l0 :: done) (c + d) (match res with None => t1 | Some _ => t end) NN'). destruct (loop false (l0 :: done) rest (c + d) _) as [[[[[e|] l] n] t']|e| |]; try contradiction.
      - destruct IH as (rs1 & r0 & rs2 & l1 & k & -> & M & R & SK & ->). exists (r :: rs1), r0, rs2, (l0 :: l1), (k + d). split; [reflexivity|]. split; [apply M2; exact M|]. split; [exact R|]. split; [exact SK|]. cbn [rev]. rewrite <- app_assoc. reflexivity.
      - destruct IH as (l' & k & -> & -> & M). exists (l0 :: l'), (k + d). split; [cbn [rev]; rewrite <- app_assoc; reflexivity|]. split; [lia|]. apply M1. exact M.
      - destruct IH as (rs1 & r0 & rs2 & l1 & k & t2 & -> & M & R). exists (r :: rs1), r0, rs2, (l0 :: l1), (k + d), t2. split; [reflexivity|]. split; [apply M2; exact M|exact R]. }
    destruct res as [e|].
    + destruct OK as (-> & _). assert (SKIP : skipped e = true -> match loop false (r :: done) rest c t with
      | Ok (None, l, n, t') => exists l' k, l = rev done ++ l' /\ n = c + k /\ marks t (r :: rest) t' l' k
      | Ok (Some e, l, _, t') => exists rs1 r0 rs2 l1 k, r :: rest = rs1 ++ r0 :: rs2 /\ marks t rs1 t' l1 k /\ relocate t' r0 = Ok (Some e, t') /\ skipped e = false /\ l = rev done ++ l1 ++ r0 :: rs2
      | UB => exists rs1 r0 rs2 l1 k t1, r :: rest = rs1 ++ r0 :: rs2 /\ marks t rs1 t1 l1 k /\ relocate t1 r0 = UB
      | _ => False
      end).
      { intro SK. specialize (STEP 0 r). rewrite Z.add_0_r in STEP. apply STEP; intros; rewrite Z.add_0_r; apply (m_skip t r e); assumption. }
      assert (STOP : skipped e = false -> exists rs1 r0 rs2 l1 k, r :: rest = rs1 ++ r0 :: rs2 /\ marks t rs1 t l1 k /\ relocate t r0 = Ok (Some e, t) /\ skipped e = false /\ rev done ++ r :: rest = rev done ++ l1 ++ r0 :: rs2).
      { intro SK. exists [], r, rest, [], 0. split; [reflexivity|]. split; [constructor|]. split; [exact E|]. split; [exact SK|reflexivity]. }
      destruct e; cbn [skipped] in *; try (apply SKIP; reflexivity); apply STOP; reflexivity.
    + specialize (STEP 1 zero_rel). apply STEP; intros; apply (m_apply t r t1); assumption.
Qed.
Lemma marks_len : forall t rs t' l n, marks t rs t' l n -> (forall r, In r rs -> 0 <= r_off r) -> zlen t' = zlen t.
Proof.
  intros t rs t' l n M. induction M as [t|t r t1 rs t2 l n E M IH|t r e rs t2 l n E SK M IH]; intro NN; [reflexivity| |apply IH; intros x X; apply NN; right; exact X]. rewrite IH by (intros x X; apply NN; right; exact X). pose proof (relocate_ok t r (NN r (or_introl eq_refl))) as H. rewrite E in H. destruct H as [(_ & ->)|(_ & ty & a & v & _ & _ & _ & _ & L & _)]; [reflexivity|exact L].
Qed.
Lemma marks_run : forall t rs t' l n, marks t rs t' l n -> (forall r, In r rs -> 0 <= r_off r) -> run big simple resolve rela t rs t' (filter (not_elided rela) l).
Proof.
  intros t rs t' l n M. induction M as [t|t r t1 rs t2 l n E M IH|t r e rs t2 l n E SK M IH]; intro NN; cbn [filter]; [constructor| |].
  - change (not_elided rela zero_rel) with (rela && false). rewrite andb_false_r. pose proof (relocate_ok t r (NN r (or_introl eq_refl))) as H. rewrite E in H. apply (run_apply _ _ _ _ t r t1); [exact H|]. apply IH. intros x X. apply NN. right. exact X.
  - pose proof (relocate_ok t r (NN r (or_introl eq_refl))) as H. rewrite E in H. destruct H as (_ & H). destruct (relocate_err _ _ _ _ E) as (_ & TY). unfold not_elided at 1. replace (r_type r =? 0) with false by lia. cbn [negb orb]. apply (run_skip _ _ _ _ t r e); [exact H| |apply IH; intros x X; apply NN; right; exact X]. destruct e; try discriminate; [left; reflexivity|right; reflexivity].
Qed.
Lemma marks_all : forall t rs t' l n, marks t rs t' l n -> 0 <= n <= zlen l /\ (n = zlen l -> filter (not_elided rela) l = []) /\ (n = 0 -> filter (not_elided rela) l = l).
Proof.
  intros t rs t' l n M. induction M as [t|t r t1 rs t2 l n E M (B & A & Z0)|t r e rs t2 l n E SK M (B & A & Z0)].
  - cbn. unfold zlen. cbn. split; [lia|split; reflexivity].
  - rewrite zlen_cons. cbn [filter]. change (not_elided rela zero_rel) with (rela && false). rewrite andb_false_r. split; [lia|]. split; [intro H; apply A; lia|lia].
  - rewrite zlen_cons. cbn [filter]. destruct (relocate_err _ _ _ _ E) as (_ & TY). assert (NE : not_elided rela r = true) by (unfold not_elided; replace (r_type r =? 0) with false by lia; reflexivity). rewrite NE. split; [lia|]. split; [lia|]. intro H. rewrite Z0 by exact H. reflexivity.
Qed.
Notation entries := (relocate_entries big simple resolve rela false true).
Lemma entries_ok : forall rs t, (forall r, In r rs -> 0 <= r_off r) ->
  match entries rs t with
  | Ok (None, rs', t') => exists l n, marks t rs t' l n /\ rs' = filter (not_elided rela) l
  | Ok (Some e, rs', t') => exists rs1 r rs2 l1 k, rs = rs1 ++ r :: rs2 /\ marks t rs1 t' l1 k /\ relocate t' r = Ok (Some e, t') /\ skipped e = false /\ rs' = l1 ++ r :: rs2
  | UB => exists rs1 r rs2 l1 k t1, rs = rs1 ++ r :: rs2 /\ marks t rs1 t1 l1 k /\ relocate t1 r = UB
  | _ => False
  end.
Proof.
  intros rs t NN. unfold relocate_entries. pose proof (loop_marks rs true [] 0 t NN) as H. destruct (loop true [] rs 0 t) as [[[[[e|] l] n] t']|e| |]; try contradiction; cbn [obind].
  - exact H.
  - destruct H as (l' & k & -> & -> & M). cbn [rev app negb orb]. destruct (marks_all _ _ _ _ _ M) as (B & A & Z0). destruct (0 + k =? zlen l') eqn:C; [exists l', k; split; [exact M|symmetry; apply A; lia]|]. destruct (0 + k =? 0) eqn:D; cbn [negb]; exists l', k; [split; [exact M|symmetry; apply Z0; lia]|]. split; [exact M|reflexivity].
  - exact H.
Qed.
(* a second time: what is marked is passed over *)
Lemma loop_again : forall t rs t' l n, marks t rs t' l n -> (forall r, In r rs -> 0 <= r_off r) -> forall first done c tail, exists c',
  loop first done (l ++ tail) c t' = loop (match l with [] => first | _ => false end) (rev l ++ done) tail c' t' /\ c' = c + n.
Proof.
  intros t rs t' l n M. induction M as [t|t r t1 rs t2 l n E M IH|t r e rs t2 l n E SK M IH]; intros NN first done c tail.
  - exists c. split; [reflexivity|lia].
  - cbn [app rel_loop]. rewrite relocate_zero. cbn [obind]. rewrite andb_false_r. destruct (IH (fun x X => NN x (or_intror X)) false (zero_rel :: done) (c + 1) tail) as (c' & -> & ->). exists (c + (n + 1)). split; [|reflexivity]. cbn [rev]. rewrite <- app_assoc. cbn [app]. replace (c + 1 + n) with (c + (n + 1)) by lia. destruct l; reflexivity.
  - cbn [app rel_loop]. assert (L : zlen t2 = zlen t) by (apply (marks_len _ _ _ _ _ M); intros x X; apply NN; right; exact X). rewrite (relocate_same t t2 r e t E L). cbn [obind]. rewrite andb_false_r. destruct (IH (fun x X => NN x (or_intror X)) false (r :: done) c tail) as (c' & EQ & ->).
    assert (G : loop false (r :: done) (l ++ tail) c t2 = loop false (rev (r :: l) ++ done) tail (c + n) t2) by (rewrite EQ; cbn [rev]; rewrite <- app_assoc; destruct l; reflexivity).
    exists (c + n). split; [|reflexivity]. destruct e; try discriminate; exact G.
Qed.
Lemma marks_kept : forall t rs t' l n, marks t rs t' l n -> (forall r, In r rs -> 0 <= r_off r) -> marks t' (filter (not_elided rela) l) t' (filter (not_elided rela) l) 0.
Proof.
  intros t rs t' l n M. induction M as [t|t r t1 rs t2 l n E M IH|t r e rs t2 l n E SK M IH]; intro NN; cbn [filter]; [constructor| |].
  - change (not_elided rela zero_rel) with (rela && false). rewrite andb_false_r. apply IH. intros x X. apply NN. right. exact X.
  - destruct (relocate_err _ _ _ _ E) as (_ & TY). assert (NE : not_elided rela r = true) by (unfold not_elided; replace (r_type r =? 0) with false by lia; reflexivity). rewrite NE. assert (L : zlen t2 = zlen t) by (apply (marks_len _ _ _ _ _ M); intros x X; apply NN; right; exact X). apply (m_skip t2 r e); [apply (relocate_same t t2 r e t E L)|exact SK|]. apply IH. intros x X. apply NN. right. exact X.
Qed.
Lemma marks_in : forall t rs t' l n, marks t rs t' l n -> forall r, In r (filter (not_elided rela) l) -> In r rs.
Proof.
  intros t rs t' l n M. induction M as [t|t r t1 rs t2 l n E M IH|t r e rs t2 l n E SK M IH]; intros x X; cbn [filter In] in X; [contradiction| |].
  - change (not_elided rela zero_rel) with (rela && false) in X. rewrite andb_false_r in X. right. exact (IH x X).
  - destruct (not_elided rela r); [destruct X as [X|X]; [left; exact X|right; exact (IH x X)]|right; exact (IH x X)].
Qed.
Lemma again_same : forall rs t e rs' t', (forall r, In r rs -> 0 <= r_off r) -> entries rs t = Ok (e, rs', t') -> entries rs' t' = Ok (e, rs', t').
Proof.
  intros rs t e rs' t' NN H. pose proof (entries_ok rs t NN) as EO. rewrite H in EO. destruct e as [e|].
  - destruct EO as (rs1 & r & rs2 & l1 & k & -> & M & R & SK & ->). assert (NN1 : forall r, In r rs1 -> 0 <= r_off r) by (intros x X; apply NN; apply in_or_app; left; exact X). destruct (loop_again _ _ _ _ _ M NN1 true [] 0 (r :: rs2)) as (c' & E & ->). unfold relocate_entries. rewrite E. cbn [rel_loop]. rewrite R. cbn [obind]. rewrite andb_false_r. rewrite app_nil_r, rev_involutive. destruct e; try discriminate; reflexivity.
  - destruct EO as (l & n & M & ->). pose proof (marks_kept _ _ _ _ _ M NN) as K. set (kept := filter (not_elided rela) l) in *. assert (NNk : forall r, In r kept -> 0 <= r_off r) by (intros x X; apply NN; exact (marks_in _ _ _ _ _ M x X)). destruct (loop_again _ _ _ _ _ K NNk true [] 0 []) as (c' & E & ->). unfold relocate_entries. rewrite app_nil_r in E. rewrite E. cbn [rel_loop obind]. rewrite app_nil_r, rev_involutive. cbn [negb orb]. destruct (0 + 0 =? zlen kept) eqn:C; [|reflexivity]. assert (kept = []); [|congruence]. destruct kept; [reflexivity|]. rewrite zlen_cons in C. pose proof (zlen_nonneg _ kept). lia.
Qed.
End one.

(* load addresses *)
Section value.
Variables (bias : Z) (cb : Z -> option Z).
Definition kept_secs (secs0 secs : list sec) : Prop := zlen secs = zlen secs0 /\ forall i s0, znth secs0 i = Some s0 -> exists s, znth secs i = Some s /\
  (s = s0 \/ (s_addr s0 = 0 /\ s_alloc s0 = true /\ exists a, cb i = Some a /\ a <> 0 /\ a <> two64 - 1 /\ s = Sec a true)).
Definition quiet_at (secs : list sec) (i : Z) : Prop := forall s, znth secs i = Some s -> s_addr s = 0 -> s_alloc s = false.
Lemma value_step : forall secs0 secs i v, kept_secs secs0 secs ->
  let '(secs', n, a) := relocate_value bias cb secs i v in
  kept_secs secs0 secs' /\ a = loaded_value bias cb secs0 i v /\ (n <> 0 -> ~ quiet_at secs i) /\
  (forall j, quiet_at secs j -> quiet_at secs' j) /\ (n <> 0 -> forall x, cb i = Some x -> x <> 0 -> x <> two64 - 1 -> quiet_at secs' i).
Proof.
  intros secs0 secs i v (L & K). unfold relocate_value, loaded_value. destruct (i =? 0) eqn:I0; [split; [split; assumption|]; split; [reflexivity|]; split; [congruence|]; split; [auto|congruence]|].
  destruct (znth secs0 i) as [s0|] eqn:S0.
  2:{ assert (N : znth secs i = None) by (apply znth_out; rewrite L; apply znth_None; exact S0). rewrite N. split; [split; assumption|]; split; [reflexivity|]; split; [congruence|]; split; [auto|congruence]. }
  destruct (K i s0 S0) as (s & S1 & H). rewrite S1.
  destruct H as [->|(A0 & AL & a & C & NA & N1 & ->)].
  - destruct (s_alloc s0) eqn:AL.
    + rewrite andb_true_r. destruct (s_addr s0 =? 0) eqn:A0.
      * assert (Q : ~ quiet_at secs i) by (intros Q; pose proof (Q s0 S1 ltac:(lia)); congruence).
        destruct (cb i) as [a|] eqn:C; [|split; [split; assumption|]; split; [reflexivity|]; split; [intros _; exact Q|]; split; [auto|discriminate]].
        pose proof (znth_range _ _ _ _ S1) as R. split; [|split; [|split; [|split]]].
        -- destruct (a =? two64 - 1) eqn:E1; [split; assumption|]. destruct (a =? 0) eqn:E0; cbn [negb]; [split; assumption|]. split; [rewrite zlen_zset; exact L|]. intros j s1 J. destruct (Z.eq_dec j i) as [->|NJ].
           ++ exists (Sec a true). split; [apply znth_zset_eq; exact R|]. right. rewrite S0 in J. injection J as <-. split; [lia|]. split; [exact AL|]. exists a. split; [exact C|]. split; [lia|]. split; [lia|reflexivity].
           ++ rewrite znth_zset_neq by congruence. exact (K j s1 J).
        -- f_equal. unfold u64. rewrite Zplus_mod_idemp_r. f_equal. lia.
        -- intros _. exact Q.
        -- intros j J. destruct (negb _) eqn:NE; [|exact J]. intros s1 H. destruct (Z.eq_dec j i) as [->|NJ]; [contradiction|]. rewrite znth_zset_neq in H by congruence. exact (J s1 H).
        -- intros _ x X X0 X1. injection X as <-. replace (a =? two64 - 1) with false by lia. replace (a =? 0) with false by lia. cbn [negb]. intros s1 H. rewrite znth_zset_eq in H by exact R. injection H as <-. cbn. lia.
      * cbn [andb]. split; [split; assumption|]. split; [|split; [congruence|]; split; [auto|congruence]].
        f_equal. unfold u64. rewrite Zplus_mod_idemp_r. f_equal. lia.
    + rewrite andb_false_r. split; [split; assumption|]. split; [reflexivity|split; [congruence|]; split; [auto|congruence]].
  - cbn [s_addr s_alloc]. replace (a =? 0) with false by lia. cbn [andb]. split; [split; assumption|]. split; [|split; [congruence|]; split; [auto|congruence]].
    rewrite AL, A0, C. replace (a =? two64 - 1) with false by lia. cbn [Z.eqb]. f_equal. unfold u64. rewrite Zplus_mod_idemp_r. f_equal. lia.
Qed.
Lemma session_ok : forall reqs secs0 secs, kept_secs secs0 secs ->
  let '(l, called) := session bias cb secs reqs in
  l = map (fun q => loaded_value bias cb secs0 (fst q) (snd q)) reqs /\
  (forall i, quiet_at secs i -> ~ In i called) /\
  (forall i x, cb i = Some x -> x <> 0 -> x <> two64 - 1 -> (count_occ Z.eq_dec called i <= 1)%nat).
Proof.
  induction reqs as [|(i, v) reqs IH]; intros secs0 secs K; cbn [session].
  - split; [reflexivity|]. split; [auto|]. intros. cbn. lia.
  - pose proof (value_step secs0 secs i v K) as V. destruct (relocate_value bias cb secs i v) as ((secs1, n), a).
    destruct V as (K1 & A & Q & QQ & Q1). specialize (IH secs0 secs1 K1). destruct (session bias cb secs1 reqs) as (l, called). destruct IH as (E & I1 & I2).
    split; [cbn [map fst snd]; rewrite <- A, <- E; reflexivity|]. destruct (n =? 0) eqn:N.
    + split; [intros j J; apply I1, QQ, J|exact I2].
    + split.
      * intros j J [->|I]; [apply Q; [lia|exact J]|exact (I1 j (QQ j J) I)].
      * intros j x C X0 X1. cbn [count_occ]. destruct (Z.eq_dec i j) as [->|NJ]; [|exact (I2 j x C X0 X1)].
        assert (Z0 : count_occ Z.eq_dec called j = 0%nat) by (apply count_occ_not_In, I1, (Q1 ltac:(lia) x C X0 X1)). lia.
Qed.
Lemma kept_refl : forall secs, kept_secs secs secs.
Proof. intros secs. split; [reflexivity|]. intros i s0 S0. exists s0. auto. Qed.
End value.

(* the search for a symbol in the other modules *)
Definition pick (name : bytes) (c : modl * sym) : bool := match y_str (snd c) with None => true | Some n => if list_eq_dec Z.eq_dec name n then true else false end.
Definition given (c : option (modl * sym)) : option (derr + Z) :=
  match c with None => None | Some (m, y) => match y_str y with None => Some (inl E_BADSTROFF) | Some _ => Some (value_in m y) end end.
Lemma module_ok : forall m name l last, snd (match_module m name l last) = given (find (pick name) (map (pair m) (filter candidate l))).
Proof.
  intros m name. induction l as [|y l IH]; intros last; [reflexivity|]. cbn [match_module filter]. unfold candidate at 1.
  change SHN_UNDEF with 0. change SHN_COMMON with 65522.
  destruct (y_shndx y =? 0); [apply IH|]. destruct (y_shndx y =? 65522); [apply IH|]. destruct (y_local y); [apply IH|]. destruct (y_name y =? 0); [apply IH|].
  cbn [orb negb andb map find]. unfold pick at 1. cbn [snd]. destruct (y_str y) as [n|] eqn:S; [|cbn [given]; rewrite S; reflexivity].
  destruct (list_eq_dec Z.eq_dec name n); [|apply IH]. cbn [given]. rewrite S. unfold value_in. change SHN_ABS with 65521. destruct (y_shndx y =? 65521); [reflexivity|]. destruct (m_rel m); reflexivity.
Qed.
Lemma find_app' : forall A (f : A -> bool) l l', find f (l ++ l') = match find f l with Some x => Some x | None => find f l' end.
Proof. induction l; intros; [reflexivity|]. cbn. destruct (f a); [reflexivity|apply IHl]. Qed.
Lemma given_some : forall c, exists r, given (Some c) = Some r.
Proof. intros (m, y). cbn. destruct (y_str y); eexists; reflexivity. Qed.
Lemma modules_ok : forall ms name last, snd (match_modules ms name last) = definition_of ms name.
Proof.
  intros ms name. change (definition_of ms name) with (given (find (pick name) (candidates ms))).
  induction ms as [|m ms IH]; intros last; [reflexivity|]. cbn [match_modules]. pose proof (module_ok m name (tl (m_syms m)) last) as M.
  destruct (match_module m name (tl (m_syms m)) last) as (last1, r). cbn [snd] in M.
  unfold candidates. cbn [map concat]. rewrite find_app'. destruct (find (pick name) (map (pair m) (filter candidate (tl (m_syms m))))) as [c|].
  - destruct (given_some c) as (r' & G). rewrite G in M. subst r. cbn [snd]. symmetry. exact G.
  - cbn [given] in M. subst r. apply IH.
Qed.
