(* Proofs about MacModel: whole calls. *)
From Verif Require Import Base LebModel LebSpec DwModel Slice CfiSpec CfiProof FormModel FormSpec FormProps LineModel PubModel MacModel MacSpec MacProof.
From Coq Require Import ZifyBool ZifyNat.

Definition lookup (h : cache) (off : Z) (b : bool) : option table :=
  match find (fun x => (fst (fst x) =? off) && Bool.eqb (snd (fst x)) b) h with Some x => Some (snd x) | None => None end.
Lemma lookup_in : forall h off b t, lookup h off b = Some t -> In (off, b, t) h.
Proof.
  intros h off b t H. unfold lookup in H. destruct (find _ h) as [[[o x] y]|] eqn:F; [|discriminate]. apply find_some in F as (I & E). cbn [fst snd] in *. apply andb_true_iff in E as (E1 & E2). apply Z.eqb_eq in E1. apply Bool.eqb_prop in E2. injection H as <-. subst. exact I.
Qed.
(* every table of the cache is one that was made from the section *)
Definition cache_ok (fle : bool) (s : option sec) (h : cache) : Prop :=
  forall off b t, In (off, b, t) h -> exists cu, if b then (exists x, s = Some x /\ get_table fle x off cu = Ok t) else get_macinfo_table cu = Ok t.
Lemma cache_op_ok : forall fle h s b off cu, cache_op_table fle h s b off cu =
  match lookup h off b with Some t => Ok (h, t) | None => t <- (if b then get_table fle s off cu else get_macinfo_table cu) ;; Ok ((off, b, t) :: h, t) end.
Proof. intros. unfold cache_op_table, lookup. destruct (find _ h); reflexivity. Qed.
Lemma lookup_new : forall h off b t, lookup ((off, b, t) :: h) off b = Some t.
Proof. intros. unfold lookup. cbn [find fst snd]. rewrite Z.eqb_refl, Bool.eqb_reflx. reflexivity. Qed.

Definition table_of (fle : bool) (m : munit) (line : Z) : table := Table (ops_of m) line (zlen (header_bytes fle m)) (mu_version m) (mu_wide m).
(* the line offset of the unit: its own, or that of the entry of the unit *)
Definition line_of (m : munit) (cu : option mcu) : outcome Z := match mu_line m with Some v => Ok v | None => cu_line cu end.
Lemma header_len : forall fle m, 3 <= zlen (header_bytes fle m).
Proof. intros. unfold header_bytes. rewrite !zlen_app, zlen_enc by lia. change (zlen [_]) with 1. pose proof (zlen_nonneg _ (line_bytes fle m)). pose proof (zlen_nonneg _ (defs_bytes m)). lia. Qed.
Lemma unit_len : forall fle m, zlen (unit_bytes fle m) = zlen (header_bytes fle m) + zlen (entries_bytes (mu_entries m)) + 1.
Proof. intros. unfold unit_bytes. rewrite !zlen_app. change (zlen [0]) with 1. lia. Qed.

Lemma table_ok : forall fle mem e m macoff h cu line, e < two32 -> unit_ok fle m -> at_ mem macoff (unit_bytes fle m) -> macoff + zlen (unit_bytes fle m) <= e ->
  cache_ok fle (Some (Sec mem e)) h -> line_of m cu = Ok line ->
  exists h' line', cache_op_table fle h (Sec mem e) true macoff cu = Ok (h', table_of fle m line') /\ cache_ok fle (Some (Sec mem e)) h' /\ lookup h' macoff true = Some (table_of fle m line') /\
    (mu_line m <> None \/ lookup h macoff true = None -> line' = line).
Proof.
  intros fle mem e m macoff h cu line E U AT B CO L. rewrite cache_op_ok. pose proof (unit_len fle m). pose proof (zlen_nonneg _ (entries_bytes (mu_entries m))).
  assert (HH : forall cu', get_table fle (Sec mem e) macoff cu' = (l <- line_of m cu' ;; Ok (table_of fle m l))).
  { intro cu'. rewrite (header_ok fle mem e E m macoff cu' (entries_bytes (mu_entries m) ++ [0]) U); [reflexivity|exact AT|lia]. }
  destruct (lookup h macoff true) as [t|] eqn:LK.
  - destruct (CO _ _ _ (lookup_in _ _ _ _ LK)) as (cu' & x & X & GT). injection X as <-. rewrite HH in GT. destruct (line_of m cu') as [l|er| |] eqn:L'; cbn [obind] in GT; try discriminate. injection GT as <-. exists h, l. split; [reflexivity|]. split; [exact CO|]. split; [exact LK|].
    intros [N|N]; [|discriminate]. unfold line_of in L, L'. destruct (mu_line m); congruence.
  - rewrite HH, L. cbn [obind]. exists ((macoff, true, table_of fle m line) :: h), line. split; [reflexivity|]. split.
    + intros off b t [I|I]; [injection I as <- <- <-; exists cu; exists (Sec mem e); split; [reflexivity|]; rewrite HH, L; reflexivity|exact (CO _ _ _ I)].
    + split; [apply lookup_new|]. auto.
Qed.

Lemma entries_app : forall a b, entries_bytes (a ++ b) = entries_bytes a ++ entries_bytes b.
Proof. intros. unfold entries_bytes. rewrite map_app, concat_app. reflexivity. Qed.

Definition start_of (fle : bool) (m : munit) (offset : Z) (done : list entry) : Prop :=
  offset = zlen (header_bytes fle m) + zlen (entries_bytes done) \/ (offset = 0 /\ done = []).
Lemma read_ok : forall A (cb : A -> macro -> A * Z) fle mem e m macoff h cu line done todo offset accept a, e < two32 -> unit_ok fle m -> at_ mem macoff (unit_bytes fle m) -> macoff + zlen (unit_bytes fle m) <= e ->
  cache_ok fle (Some (Sec mem e)) h -> line_of m cu = Ok line -> mu_entries m = done ++ todo -> start_of fle m offset done -> (accept = true \/ Forall (fun x => e_op x <> 255) todo) ->
  exists h' line', cache_ok fle (Some (Sec mem e)) h' /\ lookup h' macoff true = Some (table_of fle m line') /\ (mu_line m <> None \/ lookup h macoff true = None -> line' = line) /\ (forall t, lookup h macoff true = Some t -> t = table_of fle m line') /\
   read_macros fle cb h (Some (Sec mem e)) true macoff a offset accept cu =
    Ok (h', fst (result macoff (visit (call cb (mu_version m) line') (macoff + zlen (header_bytes fle m) + zlen (entries_bytes done)) a todo)),
        snd (result macoff (visit (call cb (mu_version m) line') (macoff + zlen (header_bytes fle m) + zlen (entries_bytes done)) a todo))).
Proof.
  intros A cb fle mem e m macoff h cu line done todo offset accept a E U AT B CO L SP ST AC. destruct (table_ok _ _ _ _ _ _ _ _ E U AT B CO L) as (h' & line' & CT & CO' & LK & LE). exists h', line'. split; [exact CO'|]. split; [exact LK|]. split; [exact LE|].
  split. { intros t Q. rewrite cache_op_ok, Q in CT. injection CT as _ ->. reflexivity. }
  pose proof (header_len fle m). pose proof (unit_len fle m) as UL. rewrite SP, entries_app, zlen_app in UL. pose proof (zlen_nonneg _ (entries_bytes done)). pose proof (zlen_nonneg _ (entries_bytes todo)). pose proof (at_bound _ _ _ AT) as (P0 & P1).
  unfold read_macros. cbn [s_size s_mem]. replace (e <=? macoff) with false by lia. rewrite CT. set (off := if offset =? 0 then _ else offset).
  assert (O : off = zlen (header_bytes fle m) + zlen (entries_bytes done)).
  { unfold off. cbn [table_of t_hdr]. destruct ST as [->|(-> & ->)]; [|change (zlen (entries_bytes [])) with 0; cbn; lia]. replace (_ =? 0) with false by lia. reflexivity. }
  rewrite O. clearbody off. replace ((_ <? 0) || (e - macoff <=? _)) with false by lia. unfold unit_bytes in AT. rewrite SP, entries_app in AT.
  assert (AT' : at_ mem (macoff + (zlen (header_bytes fle m) + zlen (entries_bytes done))) (entries_bytes todo ++ [0])).
  { apply at_app2 in AT. rewrite <- app_assoc in AT. apply at_app2 in AT. rewrite Z.add_assoc. exact AT. }
  rewrite (entries_ok fle mem e E cb (table_of fle m line') (macoff + (zlen (header_bytes fle m) + zlen (entries_bytes done))) macoff accept todo); [| | |exact AT'|lia|].
  - cbn [obind table_of t_version t_line]. rewrite <- !Z.add_assoc. destruct (result _ _); reflexivity.
  - destruct U as (_ & _ & _ & F). rewrite SP in F. apply Forall_app in F as (_ & F). unfold table_of. cbn [t_64 t_version t_ops]. eapply Forall_impl; [|exact F]. intros x (X1 & X2 & X3). split; [exact X1|]. split; [rewrite ops_of_ok; exact X2|exact X3].
  - destruct AC as [->|AC]; [apply Forall_forall; auto|eapply Forall_impl; [|exact AC]; auto].
  - pose proof (at_bound _ _ _ AT') as (_ & LB). rewrite zlen_app in LB. change (zlen [0]) with 1 in LB. unfold zlen in *. lia.
Qed.

(* tokens *)
Definition token (accept : bool) (off : Z) : Z := if accept then off - two63 else off.
Lemma token_parts : forall b off, 0 <= off < two63 -> accepts (token b off) = b /\ offset_from (token b off) = off.
Proof.
  intros b off R. unfold accepts, offset_from, token. destruct b; split; lia.
Qed.
Lemma token_stop : forall b off, 0 < off < two63 -> token_from (Stopped off) b = Stopped (token b off).
Proof. intros b off R. unfold token_from, token. replace (off =? 0) with false by lia. replace (two63 <=? off) with false by lia. reflexivity. Qed.

(* what a call reports when it stops, with the token to go on from *)
Definition outcome_of {A} (accept : bool) (macoff : Z) (v : A * option Z) : A * ret :=
  (fst v, match snd v with None => Done | Some q => Stopped (token accept (q - macoff)) end).
Lemma visit_stop : forall A (cb : A -> Z -> list (Z * Z) -> A * Z) l p a q, snd (visit cb p a l) = Some q ->
  exists d t, l = d ++ t /\ d <> [] /\ q = p + zlen (entries_bytes d).
Proof.
  intros A cb. induction l as [|x l IH]; intros p a q H; cbn [visit] in H; [discriminate|]. destruct (cb a (e_op x) _) as [a1 c]. destruct (c =? 0).
  - destruct (IH _ _ _ H) as (d & t & -> & D & ->). exists (x :: d), t. split; [reflexivity|]. split; [discriminate|]. change (entries_bytes (x :: d)) with (entry_bytes x ++ entries_bytes d). rewrite zlen_app. lia.
  - injection H as <-. exists [x], l. split; [reflexivity|]. split; [discriminate|]. change (entries_bytes [x]) with (entry_bytes x ++ []). rewrite app_nil_r. reflexivity.
Qed.
Lemma stop_token : forall A (cb : A -> Z -> list (Z * Z) -> A * Z) accept macoff p a l, macoff < p -> p + zlen (entries_bytes l) < two32 -> 0 <= macoff ->
  token_from (snd (result macoff (visit cb p a l))) accept = snd (outcome_of accept macoff (visit cb p a l)).
Proof.
  intros A cb accept macoff p a l M B P. unfold result, outcome_of. cbn [snd]. destruct (snd (visit cb p a l)) as [q|] eqn:V; [|reflexivity]. destruct (visit_stop _ _ _ _ _ _ V) as (d & t & -> & D & ->).
  rewrite entries_app, zlen_app in B. pose proof (zlen_nonneg _ (entries_bytes d)). pose proof (zlen_nonneg _ (entries_bytes t)). apply token_stop. lia.
Qed.

(* the offset of .debug_macro that the entry of a unit names *)
Definition names (c : mcu) (macoff : Z) : Prop := c_info c = None /\ (c_gnu c = Some (Some macoff) \/ ((c_gnu c = None \/ c_gnu c = Some None) /\ c_mac c = Some (Some macoff))).

Section calls.
Context {A : Type} (cb : A -> macro -> A * Z).
Variables (fle : bool) (mem : bytes) (e : Z) (m : munit) (macoff : Z).
Definition placed : Prop := e < two32 /\ unit_ok fle m /\ at_ mem macoff (unit_bytes fle m) /\ macoff + zlen (unit_bytes fle m) <= e.
Definition report (accept : bool) (line : Z) (a : A) (done todo : list entry) : A * ret :=
  outcome_of accept macoff (visit (call cb (mu_version m) line) (macoff + zlen (header_bytes fle m) + zlen (entries_bytes done)) a todo).
(* the token for the entries behind done: START or 0 at the beginning, or an offset *)
Definition token_at (accept : bool) (done : list entry) (tok : Z) : Prop :=
  tok = token accept (zlen (header_bytes fle m) + zlen (entries_bytes done)) \/ (tok = token accept 0 /\ done = []).

Lemma gnu_ok : forall h cu line done todo accept tok a, placed -> cache_ok fle (Some (Sec mem e)) h -> line_of m cu = Ok line -> mu_entries m = done ++ todo -> token_at accept done tok ->
  (accept = true \/ Forall (fun x => e_op x <> 255) todo) ->
  exists h' line', cache_ok fle (Some (Sec mem e)) h' /\ lookup h' macoff true = Some (table_of fle m line') /\ (mu_line m <> None \/ lookup h macoff true = None -> line' = line) /\ (forall t, lookup h macoff true = Some t -> t = table_of fle m line') /\
    accepts tok = accept /\
    (' (x, r) <- gnu_getmacros fle cb h (Some (Sec mem e)) macoff a (offset_from tok) accept cu ;; Ok (x, token_from r accept)) = Ok (h', fst (report accept line' a done todo), snd (report accept line' a done todo)).
Proof.
  intros h cu line done todo accept tok a (E & U & AT & B) CO L SP ST AC. pose proof (header_len fle m). pose proof (unit_len fle m) as UL. rewrite SP, entries_app, zlen_app in UL. pose proof (zlen_nonneg _ (entries_bytes done)). pose proof (zlen_nonneg _ (entries_bytes todo)). pose proof (at_bound _ _ _ AT) as (P0 & P1).
  assert (TK : accepts tok = accept /\ start_of fle m (offset_from tok) done).
  { destruct ST as [->|(-> & ->)].
    - destruct (token_parts accept (zlen (header_bytes fle m) + zlen (entries_bytes done)) ltac:(lia)) as (T1 & T2). split; [exact T1|]. left. exact T2.
    - destruct (token_parts accept 0 ltac:(lia)) as (T1 & T2). split; [exact T1|]. right. split; [exact T2|reflexivity]. }
  destruct TK as (T1 & T2). destruct (read_ok A cb fle mem e m macoff h cu line done todo (offset_from tok) accept a E U AT B CO L SP T2 AC) as (h' & line' & Q1 & Q2 & Q3 & Q4 & Q5).
  exists h', line'. split; [exact Q1|]. split; [exact Q2|]. split; [exact Q3|]. split; [exact Q4|]. split; [exact T1|]. unfold gnu_getmacros. cbn [s_size]. replace (e <=? macoff) with false by lia. rewrite Q5. cbn [obind]. unfold report. f_equal. rewrite stop_token by lia. reflexivity.
Qed.
Lemma off_ok : forall h done todo tok a, placed -> cache_ok fle (Some (Sec mem e)) h -> mu_entries m = done ++ todo -> token_at true done tok ->
  exists h' line', cache_ok fle (Some (Sec mem e)) h' /\ lookup h' macoff true = Some (table_of fle m line') /\ (mu_line m = None /\ lookup h macoff true = None -> line' = two64 - 1) /\ (forall v, mu_line m = Some v -> line' = v) /\
    (forall t, lookup h macoff true = Some t -> t = table_of fle m line') /\
    getmacros_off fle cb h (Some (Sec mem e)) macoff a tok = Ok (h', fst (report true line' a done todo), snd (report true line' a done todo)).
Proof.
  intros h done todo tok a P CO SP ST. assert (L : exists line, line_of m None = Ok line /\ (forall v, mu_line m = Some v -> line = v) /\ (mu_line m = None -> line = two64 - 1)).
  { unfold line_of. destruct (mu_line m) as [v|]; [exists v|exists (two64 - 1)]; (split; [reflexivity|]); split; intros; congruence. }
  destruct L as (line & L & L1 & L2). destruct (gnu_ok h None line done todo true tok a P CO L SP ST (or_introl eq_refl)) as (h' & line' & Q1 & Q2 & Q3 & Q4 & Q5 & Q6). exists h', line'. split; [exact Q1|]. split; [exact Q2|].
  split. { intros (N1 & N2). rewrite (Q3 (or_intror N2)). exact (L2 N1). } split. { intros v V. rewrite Q3 by (left; congruence). exact (L1 v V). } split; [exact Q4|].
  unfold getmacros_off. rewrite Q5. exact Q6.
Qed.
Lemma all_ok : forall h si c line done todo accept tok a, placed -> names c macoff -> cache_ok fle (Some (Sec mem e)) h -> line_of m (Some c) = Ok line -> mu_entries m = done ++ todo -> token_at accept done tok ->
  (accept = true \/ Forall (fun x => e_op x <> 255) todo) ->
  exists h' line', cache_ok fle (Some (Sec mem e)) h' /\ lookup h' macoff true = Some (table_of fle m line') /\ (mu_line m <> None \/ lookup h macoff true = None -> line' = line) /\ (forall t, lookup h macoff true = Some t -> t = table_of fle m line') /\
    getmacros fle cb h (Some (Sec mem e)) si c a tok = Ok (h', fst (report accept line' a done todo), snd (report accept line' a done todo)).
Proof.
  intros h si c line done todo accept tok a P (N1 & N2) CO L SP ST AC. destruct (gnu_ok h (Some c) line done todo accept tok a P CO L SP ST AC) as (h' & line' & Q1 & Q2 & Q3 & Q4 & Q5 & Q6). exists h', line'. split; [exact Q1|]. split; [exact Q2|]. split; [exact Q3|]. split; [exact Q4|].
  unfold getmacros. rewrite N1, Q5. destruct N2 as [->|([->| ->] & ->)]; exact Q6.
Qed.
End calls.
