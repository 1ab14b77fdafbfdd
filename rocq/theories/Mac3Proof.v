(* Proofs about MacModel: repeated calls, .debug_macinfo, and sections of any bytes. *)
From Verif Require Import Base LebModel LebSpec DwModel Slice CfiSpec CfiProof CfiSafe FormModel FormSpec FormProps LineModel LineSafe PubModel MacModel MacSpec MacProof Mac2Proof.
From Coq Require Import ZifyBool ZifyNat.

(* a callback that keeps what it is given and returns any number *)
Definition collect (code : list macro -> macro -> Z) (a : list macro) (x : macro) : list macro * Z := (a ++ [x], code a x).
Fixpoint macros_from (ver line p : Z) (l : list entry) : list macro :=
  match l with [] => [] | x :: l => Macro (e_op x) (map (attr_at ver) (places (p + 1) (e_operands x))) line :: macros_from ver line (p + zlen (entry_bytes x)) l end.
Lemma macros_app : forall ver line l1 l2 p, macros_from ver line p (l1 ++ l2) = macros_from ver line p l1 ++ macros_from ver line (p + zlen (entries_bytes l1)) l2.
Proof.
  intros ver line l1 l2. induction l1 as [|x l1 IH]; intro p; cbn [app macros_from]; [change (zlen (entries_bytes [])) with 0; rewrite Z.add_0_r; reflexivity|]. rewrite IH. change (entries_bytes (x :: l1)) with (entry_bytes x ++ entries_bytes l1). rewrite zlen_app, Z.add_assoc. reflexivity.
Qed.
Lemma visit_collect : forall code ver line l p a, exists d t, l = d ++ t /\ fst (visit (call (collect code) ver line) p a l) = a ++ macros_from ver line p d /\
  ((snd (visit (call (collect code) ver line) p a l) = None /\ t = []) \/ (snd (visit (call (collect code) ver line) p a l) = Some (p + zlen (entries_bytes d)) /\ d <> [])).
Proof.
  intros code ver line. induction l as [|x l IH]; intros p a; cbn [visit].
  - exists [], []. split; [reflexivity|]. split; [cbn [fst macros_from]; rewrite app_nil_r; reflexivity|]. left. split; reflexivity.
  - unfold call at 1 3 5, collect at 1 3 5. set (mc := Macro _ _ _). destruct (code a mc =? 0).
    + destruct (IH (p + zlen (entry_bytes x)) (a ++ [mc])) as (d & t & -> & F & S1). exists (x :: d), t. split; [reflexivity|]. split; [rewrite F, <- app_assoc; reflexivity|]. change (entries_bytes (x :: d)) with (entry_bytes x ++ entries_bytes d). rewrite zlen_app, Z.add_assoc. destruct S1 as [S1|(S1 & S2)]; [left; exact S1|right; split; [exact S1|discriminate]].
    + exists [x], l. split; [reflexivity|]. split; [reflexivity|]. right. split; [|discriminate]. change (entries_bytes [x]) with (entry_bytes x ++ []). rewrite app_nil_r. reflexivity.
Qed.

Section drive.
Variables (fle : bool) (code : list macro -> macro -> Z) (so si : option sec) (c : mcu).
(* dwarf_getmacros again and again with the token of the call before *)
Fixpoint drive (n : nat) (h : cache) (a : list macro) (tok : Z) : outcome (cache * list macro * ret) :=
  match n with
  | O => Fuel
  | Datatypes.S n => match getmacros fle (collect code) h so si c a tok with Ok (h, a, Stopped t) => drive n h a t | x => x end
  end.
(* dwarf_getmacros_off, the same *)
Fixpoint drive_off (n : nat) (macoff : Z) (h : cache) (a : list macro) (tok : Z) : outcome (cache * list macro * ret) :=
  match n with
  | O => Fuel
  | Datatypes.S n => match getmacros_off fle (collect code) h so macoff a tok with Ok (h, a, Stopped t) => drive_off n macoff h a t | x => x end
  end.
End drive.

Lemma drive_ok : forall fle code mem e m macoff si c line accept, placed fle mem e m macoff -> names c macoff -> line_of m (Some c) = Ok line -> (accept = true \/ Forall (fun x => e_op x <> 255) (mu_entries m)) ->
  forall n h a done todo tok, cache_ok fle (Some (Sec mem e)) h -> mu_entries m = done ++ todo -> token_at fle m accept done tok -> (length todo < n)%nat ->
  exists h' line', cache_ok fle (Some (Sec mem e)) h' /\ lookup h' macoff true = Some (table_of fle m line') /\ (mu_line m <> None \/ lookup h macoff true = None -> line' = line) /\ (forall t, lookup h macoff true = Some t -> t = table_of fle m line') /\
    drive fle code (Some (Sec mem e)) si c n h a tok = Ok (h', a ++ macros_from (mu_version m) line' (macoff + zlen (header_bytes fle m) + zlen (entries_bytes done)) todo, Done).
Proof.
  intros fle code mem e m macoff si c line accept P N L AC. induction n as [|n IH]; intros h a done todo tok CO SP ST K; [lia|]. cbn [drive].
  assert (AC' : accept = true \/ Forall (fun x => e_op x <> 255) todo) by (destruct AC as [AC|AC]; [left; exact AC|right; rewrite SP in AC; apply Forall_app in AC as (_ & AC); exact AC]).
  destruct (all_ok (collect code) fle mem e m macoff h si c line done todo accept tok a P N CO L SP ST AC') as (h' & line' & Q1 & Q2 & Q3 & Q4 & Q5). rewrite Q5. unfold report, outcome_of. cbn [fst snd].
  set (p := macoff + _ + _). destruct (visit_collect code (mu_version m) line' todo p a) as (d & t & -> & F & [(S1 & ->)|(S1 & D)]).
  - rewrite S1. exists h', line'. split; [exact Q1|]. split; [exact Q2|]. split; [exact Q3|]. split; [exact Q4|]. rewrite app_nil_r in *. rewrite F. reflexivity.
  - rewrite S1, F. set (tok' := token _ _).
    destruct (IH h' (a ++ macros_from (mu_version m) line' p d) (done ++ d) t tok') as (h2 & l2 & R1 & R2 & R3 & R4 & R5).
    + exact Q1.
    + rewrite SP, app_assoc. reflexivity.
    + left. unfold tok', p. rewrite entries_app, zlen_app. f_equal. lia.
    + rewrite app_length in K. destruct d; [contradiction|]. cbn [length] in K. lia.
    + exists h2, l2. pose proof (R4 _ Q2) as X. assert (l2 = line') by (unfold table_of in X; congruence). subst l2. split; [exact R1|]. split; [exact R2|]. split; [exact Q3|]. split; [exact Q4|]. rewrite R5. rewrite macros_app, app_assoc, entries_app, zlen_app, Z.add_assoc. reflexivity.
Qed.
Lemma drive_off_ok : forall fle code mem e m macoff, placed fle mem e m macoff ->
  forall n h a done todo tok, cache_ok fle (Some (Sec mem e)) h -> mu_entries m = done ++ todo -> token_at fle m true done tok -> (length todo < n)%nat ->
  exists h' line', cache_ok fle (Some (Sec mem e)) h' /\ lookup h' macoff true = Some (table_of fle m line') /\ (mu_line m = None /\ lookup h macoff true = None -> line' = two64 - 1) /\ (forall v, mu_line m = Some v -> line' = v) /\ (forall t, lookup h macoff true = Some t -> t = table_of fle m line') /\
    drive_off fle code (Some (Sec mem e)) n macoff h a tok = Ok (h', a ++ macros_from (mu_version m) line' (macoff + zlen (header_bytes fle m) + zlen (entries_bytes done)) todo, Done).
Proof.
  intros fle code mem e m macoff P. induction n as [|n IH]; intros h a done todo tok CO SP ST K; [lia|]. cbn [drive_off].
  destruct (off_ok (collect code) fle mem e m macoff h done todo tok a P CO SP ST) as (h' & line' & Q1 & Q2 & Q3 & Q3' & Q4 & Q5). rewrite Q5. unfold report, outcome_of. cbn [fst snd].
  set (p := macoff + _ + _). destruct (visit_collect code (mu_version m) line' todo p a) as (d & t & -> & F & [(S1 & ->)|(S1 & D)]).
  - rewrite S1. exists h', line'. split; [exact Q1|]. split; [exact Q2|]. split; [exact Q3|]. split; [exact Q3'|]. split; [exact Q4|]. rewrite app_nil_r in *. rewrite F. reflexivity.
  - rewrite S1, F. set (tok' := token _ _).
    destruct (IH h' (a ++ macros_from (mu_version m) line' p d) (done ++ d) t tok') as (h2 & l2 & R1 & R2 & R3 & R3' & R4 & R5).
    + exact Q1.
    + rewrite SP, app_assoc. reflexivity.
    + left. unfold tok', p. rewrite entries_app, zlen_app. f_equal. lia.
    + rewrite app_length in K. destruct d; [contradiction|]. cbn [length] in K. lia.
    + exists h2, l2. pose proof (R4 _ Q2) as X. assert (l2 = line') by (unfold table_of in X; congruence). subst l2. split; [exact R1|]. split; [exact R2|]. split; [exact Q3|]. split; [exact Q3'|]. split; [exact Q4|]. rewrite R5. rewrite macros_app, app_assoc, entries_app, zlen_app, Z.add_assoc. reflexivity.
Qed.

(* .debug_macinfo *)
Lemma old_ok : forall op, forms_of macinfo_ops op = old_standard op.
Proof.
  intro op. unfold forms_of, macinfo_ops. cbn [find fst snd]. destruct op as [|q|q]; try reflexivity.
  do 8 (try (destruct q as [q|q|]; try reflexivity)).
Qed.
Lemma simple_holds : forall fle o o' v f x b, f = 15 \/ f = 8 -> holds (Params fle 8 o v) f x b -> holds (Params fle 8 o' v) f x b.
Proof.
  intros fle o o' v f x b F H. destruct H as [form w n I R| | form n b I U | | | | | | |form b y [-> | ->] U|s S0|]; try (destruct F; discriminate).
  - exfalso. destruct F as [-> | ->]; unfold fixed_width in I; cbn [In] in I; repeat (destruct I as [I|I]; [discriminate I|]); destruct I.
  - apply H_uleb; assumption.
  - apply H_string. exact S0.
Qed.
Lemma old_entry : forall fle o x, entry_ok (Params fle 8 4 0) old_standard x -> entry_ok (Params fle 8 o 0) (forms_of macinfo_ops) x.
Proof.
  intros fle o x (R & F & H). split; [exact R|]. split; [rewrite old_ok; exact F|]. assert (G : Forall (fun f => f = 15 \/ f = 8) (map (fun y => fst (fst y)) (e_operands x))).
  { destruct (old_standard (e_op x)) as [l|] eqn:OS; [|discriminate]. injection F as <-. rewrite <- old_ok in OS. unfold forms_of in OS. destruct (find _ macinfo_ops) as [[op' fs]|] eqn:FF; [|discriminate]. injection OS as <-. apply find_some in FF as (I & _). cbn [snd].
    cbn [macinfo_ops In] in I. repeat (destruct I as [I|I]; [injection I as <- <-; repeat (apply Forall_cons; [cbn; auto|]); apply Forall_nil|]). destruct I. }
  rewrite Forall_map in G. clear F. rewrite Forall_forall in *. intros y Y. destruct (H y Y) as (H1 & H2). split; [exact H1|]. exact (simple_holds _ _ _ _ _ _ _ (G y Y) H2).
Qed.
Lemma macinfo_ok : forall A (cb : A -> macro -> A * Z) fle mem e so l macoff h c line tok accept done todo a, e < two32 -> Forall (entry_ok (Params fle 8 4 0) old_standard) l -> at_ mem macoff (entries_bytes l ++ [0]) -> macoff + zlen (entries_bytes l) < e ->
  cache_ok fle so h -> c_info c = Some (Some macoff) -> cu_line (Some c) = Ok line -> l = done ++ todo -> tok = token accept (zlen (entries_bytes done)) ->
  exists h' line', cache_ok fle so h' /\ (lookup h macoff false = None -> line' = line) /\
    getmacros fle cb h so (Some (Sec mem e)) c a tok =
      Ok (h', fst (outcome_of accept macoff (visit (call cb 0 line') (macoff + zlen (entries_bytes done)) a todo)), snd (outcome_of accept macoff (visit (call cb 0 line') (macoff + zlen (entries_bytes done)) a todo))).
Proof.
  intros A cb fle mem e so l macoff h c line tok accept done todo a E F AT B CO CI L SP TK.
  assert (CT : exists h' line' w, cache_op_table fle h (Sec mem e) false macoff (Some c) = Ok (h', Table macinfo_ops line' 0 0 w) /\ cache_ok fle so h' /\ (lookup h macoff false = None -> line' = line)).
  { rewrite cache_op_ok. destruct (lookup h macoff false) as [t|] eqn:LK.
    - destruct (CO _ _ _ (lookup_in _ _ _ _ LK)) as (cu & GT). destruct cu as [c'|]; [|discriminate]. unfold get_macinfo_table in GT. destruct (cu_line (Some c')) as [v|er| |]; cbn [obind] in GT; try discriminate. injection GT as <-. exists h, v, (c_asize c' =? 8). split; [reflexivity|]. split; [exact CO|discriminate].
    - unfold get_macinfo_table. rewrite L. cbn [obind]. eexists _, line, (c_asize c =? 8). split; [reflexivity|]. split; [|reflexivity]. intros off b t [I|I]; [injection I as <- <- <-; exists (Some c); unfold get_macinfo_table; rewrite L; reflexivity|exact (CO _ _ _ I)]. }
  destruct CT as (h' & line' & w & CT & CO' & LE). exists h', line'. split; [exact CO'|]. split; [exact LE|].
  subst l. rewrite entries_app in AT, B. rewrite zlen_app in B. pose proof (zlen_nonneg _ (entries_bytes done)). pose proof (zlen_nonneg _ (entries_bytes todo)). pose proof (at_bound _ _ _ AT) as (P0 & P1). rewrite <- app_assoc in AT. apply Forall_app in F as (_ & F).
  destruct (token_parts accept (zlen (entries_bytes done)) ltac:(lia)) as (T1 & T2). rewrite <- TK in T1, T2. unfold getmacros. rewrite CI, T1, T2. unfold read_macros. cbn [s_size s_mem]. replace (e <=? macoff) with false by lia. rewrite CT. cbn [t_hdr].
  replace (if zlen (entries_bytes done) =? 0 then 0 else zlen (entries_bytes done)) with (zlen (entries_bytes done)) by (destruct (zlen (entries_bytes done) =? 0) eqn:X; lia).
  replace ((_ <? 0) || (e - macoff <=? _)) with false by lia. pose proof (at_app2 _ _ _ _ AT) as AT'.
  rewrite (entries_ok fle mem e E cb (Table macinfo_ops line' 0 0 w) (macoff + zlen (entries_bytes done)) macoff true todo); [| | |exact AT'|lia|].
  - cbn [obind t_version t_line]. unfold result. cbn [obind fst snd]. f_equal. f_equal. unfold outcome_of. cbn [snd]. destruct (snd (visit _ _ _ _)) as [q|] eqn:V; [|reflexivity]. destruct (visit_stop _ _ _ _ _ _ V) as (d & t & -> & D & ->).
    rewrite entries_app, zlen_app in B. pose proof (zlen_nonneg _ (entries_bytes t)). assert (1 <= zlen (entries_bytes d)).
    { destruct d as [|y d]; [contradiction|]. change (entries_bytes (y :: d)) with (entry_bytes y ++ entries_bytes d). rewrite zlen_app. pose proof (entry_len y). pose proof (zlen_nonneg _ (entries_bytes d)). lia. }
    apply token_stop. lia.
  - cbn [t_64 t_version t_ops]. eapply Forall_impl; [|exact F]. intros x X. apply old_entry. exact X.
  - apply Forall_forall. auto.
  - pose proof (at_bound _ _ _ AT') as (_ & LB). rewrite zlen_app in LB. change (zlen [0]) with 1 in LB. unfold zlen in *. lia.
Qed.

(* any bytes *)
Section any.
Variables (fle : bool) (mem : bytes) (e : Z).
Hypothesis B : bytes_ok mem.
Hypothesis E : e + 8 <= zlen mem.
Hypothesis SM : zlen mem < two63.
Section vl.
  Variables (st osize ver : Z).
  Hypothesis OS : osize = 4 \/ osize = 8.
  Let u := Cu mem st e 0 osize ver fle.
  Lemma val_len_any : forall f p, valid_user_form f = true -> 0 <= p <= e -> safe (val_len u f p) (fun n => 0 <= n <= e - p).
  Proof using B E SM OS.
    intros f p VF P. unfold val_len. cbn [form_val_len]. change (u_endp u) with e. change (u_mem u) with mem. change (u_fle u) with fle. change (u_osize u) with osize. change (u_asize u) with 0. rewrite u64_small by lia.
    assert (CK : forall n, 0 <= n -> safe (if e - p <? n then Err DWARF_E_INVALID_DWARF else Ok n) (fun n => 0 <= n <= e - p)) by (intros n N; destruct (e - p <? n) eqn:L; [exact Logic.I|sf; lia]).
    assert (RD : forall n k, (n = 1 \/ n = 2 \/ n = 4) -> (forall v, 0 <= v -> 0 <= k v) -> safe (if e - p <? n then Err DWARF_E_INVALID_DWARF else v <- rd fle mem p n ;; (if e - p <? k v then Err DWARF_E_INVALID_DWARF else Ok (k v))) (fun n => 0 <= n <= e - p)).
    { intros n k N K. destruct (e - p <? n) eqn:L; [exact Logic.I|]. rewrite rd_in by lia. cbn [obind]. apply CK, K. pose proof (fval_bound fle (zsub mem p n) (bytes_ok_part _ _ _ B)). lia. }
    assert (LB : forall k, (forall v q, 0 <= v -> p < q -> 0 <= k v q) -> safe (' (v, q) <- get_uleb128 mem p e ;; (if e - p <? k v q then Err DWARF_E_INVALID_DWARF else Ok (k v q))) (fun n => 0 <= n <= e - p)).
    { intros k K. destruct (uleb_any mem p e B ltac:(lia) ltac:(lia)) as (v & q & -> & V & Q & _). cbn [obind]. apply CK, K; lia. }
    unfold valid_user_form in VF. cbn [existsb] in VF. repeat rewrite orb_true_iff in VF. rewrite !Z.eqb_eq in VF.
    assert (U32 : forall v, 0 <= v -> 0 <= u32 (v + 4)) by (intros v V; unfold u32; apply Z.mod_pos_bound; lia).
    assert (MC : safe (r <- memchr0 (Datatypes.S (length mem)) mem p (e - p) ;; match r with None => Err DWARF_E_INVALID_DWARF | Some z => if e - p <? z - p + 1 then Err DWARF_E_INVALID_DWARF else Ok (z - p + 1) end) (fun n => 0 <= n <= e - p)).
    { eapply safe_bind; [apply memchr0_safe; [lia|lia|unfold zlen in *; lia]|]. intros [z|] ZZ; [|exact Logic.I]. apply CK. lia. }
    change size_form_lengths with 45. repeat (destruct VF as [VF|VF]; [subst f; cbn -[Z.sub Z.add rd get_uleb128 memchr0]; first [apply CK; lia | apply (RD 1 (fun v => v + 1)); [lia|lia] | apply (RD 2 (fun v => v + 2)); [lia|lia] | apply (RD 4 (fun v => u32 (v + 4))); [lia|exact U32]
       | apply (LB (fun v q => u64 (v + (q - p)))); intros v q V Q; unfold u64; apply Z.mod_pos_bound; lia | apply (LB (fun v q => q - p)); intros; lia | exact MC ]|]). discriminate.
  Qed.
  Lemma operands_any : forall l p, 0 <= p <= e -> safe (operands u l p) (fun r => p <= snd r <= e).
  Proof using B E SM OS.
    induction l as [|f l IH]; intros p P; cbn [operands]; [sf; lia|]. destruct (valid_user_form f) eqn:VF; cbn [negb]; [|exact Logic.I]. eapply safe_bind; [apply (val_len_any f p VF P)|]. intros n N. cbn beta in N. eapply safe_bind; [apply IH; lia|]. intros [r q] Q. sf. lia.
  Qed.
End vl.
Context {A : Type} (cb : A -> macro -> A * Z).
Lemma loop_any : forall t st start accept k p a, 0 <= p <= e -> (Z.to_nat (e - p) < k)%nat ->
  safe (ops_loop fle cb k (Sec mem e) t start accept (fake_cu fle (Sec mem e) t st) p a) (fun r => match snd r with Stopped off => p < start + off <= e | _ => True end).
Proof using B E SM.
  intros t st start accept. induction k as [|k IH]; intros p a P K; [lia|]. cbn [ops_loop s_size s_mem]. destruct (e <=? p) eqn:L; [exact Logic.I|]. rewrite rd_in by lia. cbn [obind]. destruct (_ =? 0); [exact Logic.I|]. destruct (_ && _); [exact Logic.I|]. destruct (forms_of _ _) as [fs|]; [|exact Logic.I].
  assert (OS : (if t_64 t then 8 else 4) = 4 \/ (if t_64 t then 8 else 4) = 8) by (destruct (t_64 t); auto).
  unfold fake_cu. cbn [s_mem s_size]. pose proof (operands_any st _ (t_version t) OS fs (p + 1) ltac:(lia)) as OP. destruct (operands _ fs (p + 1)) as [[r q]|er| |]; try contradiction; [|exact Logic.I]. cbn [safe snd] in OP.
  destruct (cb a _) as [a1 cd]. destruct (negb (cd =? 0)); [sf; lia|]. eapply safe_impl; [apply IH; lia|]. intros [x [|off|er]] X; cbn [snd] in *; try exact X. lia.
Qed.
Lemma read_any : forall h macro macoff a offset accept cu, 0 <= macoff -> 0 <= offset ->
  (macoff < e -> safe (cache_op_table fle h (Sec mem e) macro macoff cu) (fun r => 0 <= (if offset =? 0 then t_hdr (snd r) else offset) < e - macoff)) ->
  safe (read_macros fle cb h (Some (Sec mem e)) macro macoff a offset accept cu) (fun r => match snd r with Stopped off => (offset < off /\ 0 < off <= e - macoff) | _ => True end).
Proof using B E SM.
  intros h macro macoff a offset accept cu M O CT. unfold read_macros. cbn [s_size s_mem]. destruct (e <=? macoff) eqn:L; [exact Logic.I|]. specialize (CT ltac:(lia)). destruct (cache_op_table _ _ _ _ _ _) as [[h' t]|er| |]; try contradiction; [|exact Logic.I]. cbn [safe snd] in CT. set (off := if offset =? 0 then t_hdr t else offset) in *.
  replace ((off <? 0) || (e - macoff <=? off)) with false by lia.
  assert (OO : offset <= off) by (unfold off in *; destruct (offset =? 0) eqn:X; lia).
  eapply safe_bind; [apply loop_any; unfold zlen in *; lia|]. intros [x r] R. cbn [safe snd] in *. destruct r; try exact Logic.I. lia.
Qed.
Lemma table_any : forall macoff cu, 0 <= macoff -> (forall fl, rd fle mem (macoff + 2) 1 = Ok fl -> Z.testbit fl 2 = false) ->
  safe (get_table fle (Sec mem e) macoff cu) (fun t => 3 <= t_hdr t <= 11 /\ macoff + t_hdr t <= e /\ t_ops t = macro_ops /\ (t_version t = 4 \/ t_version t = 5)).
Proof using B E SM.
  intros macoff cu M T. unfold get_table. cbn [s_size s_mem]. destruct (e <? macoff + 3) eqn:L; [exact Logic.I|]. rewrite rd_in by lia. cbn [obind]. destruct (negb _ && negb _) eqn:V; [exact Logic.I|]. destruct (rd fle mem (macoff + 2) 1) as [fl|er| |] eqn:FL; try (rewrite rd_in in FL by lia; discriminate). cbn [obind]. rewrite (T _ eq_refl). clear FL T.
  eapply safe_bind with (P := fun r => macoff + 3 <= snd r <= macoff + 11 /\ snd r <= e).
  { destruct (Z.testbit fl 1).
    - eapply safe_bind; [apply rd_safe; destruct (Z.testbit fl 0); lia|]. intros v _. match goal with |- safe (if ?b then _ else _) _ => destruct b eqn:L2 end; [exact Logic.I|]. sf. destruct (Z.testbit fl 0); lia.
    - unfold cu_line. destruct cu as [c|]; [destruct (c_line c) as [[v|]|]|]; cbn [obind safe snd]; try exact Logic.I; lia. }
  intros [line p] P. cbn [obind]. change (Nat.leb 255 (count_ops macro_ops)) with false. cbn [safe t_hdr t_ops t_version snd] in *. split; [lia|]. split; [lia|]. split; [reflexivity|]. lia.
Qed.
End any.

(* calls keep the cache correct *)
Lemma cache_op_keeps : forall fle so s b off cu h h' t, cache_ok fle so h -> (b = true -> so = Some s) -> cache_op_table fle h s b off cu = Ok (h', t) -> cache_ok fle so h'.
Proof.
  intros fle so s b off cu h h' t CO SO H. rewrite cache_op_ok in H. destruct (lookup h off b) as [x|]; [injection H as <- <-; exact CO|]. destruct (if b then get_table fle s off cu else get_macinfo_table cu) as [x|er| |] eqn:G; cbn [obind] in H; try discriminate. injection H as <- <-.
  intros o1 b1 t1 [I|I]; [|exact (CO _ _ _ I)]. injection I as <- <- <-. exists cu. destruct b; [exists s; split; [exact (SO eq_refl)|exact G]|exact G].
Qed.
Lemma read_keeps : forall A (cb : A -> macro -> A * Z) fle so s b macoff a offset accept cu h h' a' r, cache_ok fle so h -> (b = true -> so = s) -> read_macros fle cb h s b macoff a offset accept cu = Ok (h', a', r) -> cache_ok fle so h'.
Proof.
  intros A cb fle so s b macoff a offset accept cu h h' a' r CO SO H. unfold read_macros in H. destruct s as [s|]; [|injection H as <- <- <-; exact CO]. destruct (s_size s <=? macoff); [injection H as <- <- <-; exact CO|]. destruct (cache_op_table fle h s b macoff cu) as [[h1 t]|er| |] eqn:CT; try discriminate; [|injection H as <- <- <-; exact CO].
  destruct (_ || _); [discriminate|]. destruct (ops_loop _ _ _ _ _ _ _ _ _ _) as [[a1 r1]|er| |]; cbn [obind] in H; try discriminate. injection H as <- <- <-. exact (cache_op_keeps _ _ _ _ _ _ _ _ _ CO SO CT).
Qed.
Lemma off_keeps : forall A (cb : A -> macro -> A * Z) fle so macoff a tok h h' a' r, cache_ok fle so h -> getmacros_off fle cb h so macoff a tok = Ok (h', a', r) -> cache_ok fle so h'.
Proof.
  intros A cb fle so macoff a tok h h' a' r CO H. unfold getmacros_off in H. destruct (negb _); [discriminate|]. unfold gnu_getmacros in H. destruct so as [s|]; [|discriminate]. destruct (s_size s <=? macoff); [cbn in H; injection H as <- <- <-; exact CO|].
  destruct (read_macros _ _ _ _ _ _ _ _ _ _) as [[[h1 a1] r1]|er| |] eqn:R; cbn [obind] in H; try discriminate. injection H as <- <- <-. exact (read_keeps _ _ _ _ _ _ _ _ _ _ _ _ _ _ _ CO (fun _ => eq_refl) R).
Qed.
Lemma all_keeps : forall A (cb : A -> macro -> A * Z) fle so si c a tok h h' a' r, cache_ok fle so h -> getmacros fle cb h so si c a tok = Ok (h', a', r) -> cache_ok fle so h'.
Proof.
  intros A cb fle so si c a tok h h' a' r CO H. unfold getmacros in H.
  assert (G : forall macoff cu, (' (x, r) <- gnu_getmacros fle cb h so macoff a (offset_from tok) (accepts tok) cu ;; Ok (x, token_from r (accepts tok))) = Ok (h', a', r) -> cache_ok fle so h').
  { intros macoff cu X. unfold gnu_getmacros in X. destruct so as [s|]; [|discriminate]. destruct (s_size s <=? macoff); [cbn in X; injection X as <- <- <-; exact CO|].
    destruct (read_macros _ _ _ _ _ _ _ _ _ _) as [[[h1 a1] r1]|er| |] eqn:R; cbn [obind] in X; try discriminate. injection X as <- <- <-. exact (read_keeps _ _ _ _ _ _ _ _ _ _ _ _ _ _ _ CO (fun _ => eq_refl) R). }
  destruct (c_info c) as [[macoff|]|].
  - destruct (read_macros _ _ _ _ _ _ _ _ _ _) as [[[h1 a1] r1]|er| |] eqn:R; cbn [obind] in H; try discriminate. injection H as <- <- <-. assert (N : false = true -> so = si) by discriminate. exact (read_keeps _ _ _ _ _ _ _ _ _ _ _ _ _ _ _ CO N R).
  - injection H as <- <- <-. exact CO.
  - destruct (c_gnu c) as [[m1|]|]; [exact (G _ _ H)| |]; (destruct (c_mac c) as [[m2|]|]; [exact (G _ _ H)| |]; injection H as <- <- <-; exact CO).
Qed.

(* opcode 255 for a caller that does not know it *)
Lemma ff_ok : forall A (cb : A -> macro -> A * Z) fle mem e t st start l k p a, e < two32 ->
  Forall (entry_ok (Params fle 8 (if t_64 t then 8 else 4) (t_version t)) (forms_of (t_ops t))) l -> Forall (fun x => e_op x <> 255) l ->
  at_ mem p (entries_bytes l ++ [255]) -> p + zlen (entries_bytes l) < e -> (length (entries_bytes l) < k)%nat ->
  ops_loop fle cb k (Sec mem e) t start false (fake_cu fle (Sec mem e) t st) p a =
    Ok (match snd (visit (call cb (t_version t) (t_line t)) p a l) with None => (fst (visit (call cb (t_version t) (t_line t)) p a l), Failed DWARF_E_INVALID_OPCODE) | Some _ => result start (visit (call cb (t_version t) (t_line t)) p a l) end).
Proof.
  intros A cb fle mem e t st start l k p a E. revert k p a. induction l as [|x l IH]; intros k p a F AC AT B K; (destruct k as [|k]; [lia|]); cbn [ops_loop]; cbn [s_size s_mem].
  - change (entries_bytes []) with (@nil Z) in *. cbn [app] in AT. change (zlen []) with 0 in B. replace (e <=? p) with false by lia. rewrite (rd_at1 fle mem p 255 []) by (try exact AT; lia). reflexivity.
  - apply Forall_cons_iff in F as ((OP & FO & OO) & F). apply Forall_cons_iff in AC as (ACx & AC).
    change (entries_bytes (x :: l)) with (entry_bytes x ++ entries_bytes l) in *. rewrite <- app_assoc in AT. rewrite zlen_app in B. rewrite app_length in K. pose proof (entry_len x). pose proof (zlen_nonneg _ (entries_bytes l)).
    replace (e <=? p) with false by lia. pose proof AT as AT'. unfold entry_bytes in AT'. cbn [app] in AT'. rewrite (rd_at1 fle mem p (e_op x) _ ltac:(lia) AT'). cbn [obind].
    replace (e_op x =? 0) with false by lia. replace ((e_op x =? 255) && negb false) with false by lia.
    rewrite FO. assert (ZE : zlen (entry_bytes x) = 1 + zlen (operand_bytes (e_operands x))) by (unfold entry_bytes; apply zlen_cons).
    unfold fake_cu. cbn [s_mem s_size]. assert (OS : (if t_64 t then 8 else 4) = 4 \/ (if t_64 t then 8 else 4) = 8) by (destruct (t_64 t); auto). rewrite (operands_ok fle mem e E st _ _ _ (p + 1) OS OO).
    + cbn [visit]. fold (call cb (t_version t) (t_line t) a (e_op x) (places (p + 1) (e_operands x))). replace (p + 1 + zlen (operand_bytes (e_operands x))) with (p + zlen (entry_bytes x)) by lia.
      destruct (call cb (t_version t) (t_line t) a (e_op x) (places (p + 1) (e_operands x))) as [a1 code]. destruct (code =? 0) eqn:C; cbn [negb]; [|reflexivity].
      apply (IH k); [exact F|exact AC|exact (at_app2 _ _ _ _ AT)|lia|unfold zlen in *; lia].
    + apply at_shift in AT'. exact (at_app1 _ _ _ _ AT').
    + lia.
Qed.
Lemma refuse_ok : forall A (cb : A -> macro -> A * Z) fle mem e m macoff h si c line pre x rest a, placed fle mem e m macoff -> names c macoff -> cache_ok fle (Some (Sec mem e)) h -> line_of m (Some c) = Ok line ->
  mu_entries m = pre ++ x :: rest -> e_op x = 255 -> Forall (fun y => e_op y <> 255) pre ->
  exists h' line', cache_ok fle (Some (Sec mem e)) h' /\
    getmacros fle cb h (Some (Sec mem e)) si c a 0 =
      Ok (h', fst (visit (call cb (mu_version m) line') (macoff + zlen (header_bytes fle m)) a pre),
          match snd (visit (call cb (mu_version m) line') (macoff + zlen (header_bytes fle m)) a pre) with None => Failed DWARF_E_INVALID_OPCODE | Some q => Stopped (q - macoff) end).
Proof.
  intros A cb fle mem e m macoff h si c line pre x rest a (E & U & AT & B) (N1 & N2) CO L SP X AC. destruct (table_ok _ _ _ _ _ _ _ _ E U AT B CO L) as (h' & line' & CT & CO' & _). exists h', line'. split; [exact CO'|].
  pose proof (header_len fle m). pose proof (unit_len fle m) as UL. change (x :: rest) with ([x] ++ rest) in SP. rewrite SP, !entries_app, !zlen_app in UL. pose proof (zlen_nonneg _ (entries_bytes pre)). pose proof (zlen_nonneg _ (entries_bytes rest)). pose proof (entry_len x) as EL. change (entries_bytes [x]) with (entry_bytes x ++ []) in UL. rewrite app_nil_r in UL. pose proof (at_bound _ _ _ AT) as (P0 & P1).
  assert (G : (' (x, r) <- gnu_getmacros fle cb h (Some (Sec mem e)) macoff a 0 false (Some c) ;; Ok (x, token_from r false)) =
     Ok (h', fst (visit (call cb (mu_version m) line') (macoff + zlen (header_bytes fle m)) a pre),
          match snd (visit (call cb (mu_version m) line') (macoff + zlen (header_bytes fle m)) a pre) with None => Failed DWARF_E_INVALID_OPCODE | Some q => Stopped (q - macoff) end)).
  { unfold gnu_getmacros, read_macros. cbn [s_size s_mem]. replace (e <=? macoff) with false by lia. rewrite CT. cbn [table_of t_hdr]. change (0 =? 0) with true. cbn [obind].
    replace ((_ <? 0) || (e - macoff <=? _)) with false by lia. unfold unit_bytes in AT. rewrite SP, !entries_app in AT. rewrite <- !app_assoc in AT. apply at_app2 in AT.
    change (entries_bytes [x]) with (entry_bytes x ++ []) in AT. rewrite app_nil_r in AT. unfold entry_bytes in AT. rewrite X in AT. cbn [app] in AT.
    assert (AT' : at_ mem (macoff + zlen (header_bytes fle m)) (entries_bytes pre ++ [255])).
    { replace (entries_bytes pre ++ 255 :: operand_bytes (e_operands x) ++ entries_bytes rest ++ [0]) with ((entries_bytes pre ++ [255]) ++ operand_bytes (e_operands x) ++ entries_bytes rest ++ [0]) in AT by (rewrite <- app_assoc; reflexivity). exact (at_app1 _ _ _ _ AT). }
    fold (table_of fle m line'). rewrite (ff_ok A cb fle mem e (table_of fle m line') (macoff + zlen (header_bytes fle m)) macoff pre); [|exact E| |exact AC|exact AT'|lia|].
    - cbn [table_of t_version t_line]. set (v := visit _ _ _ _). destruct (snd v) as [q|] eqn:V; cbn [obind]; [|reflexivity]. unfold result. rewrite V. cbn [obind fst snd]. destruct (visit_stop _ _ _ _ _ _ V) as (d & t & -> & D & ->). rewrite entries_app, zlen_app in *. pose proof (zlen_nonneg _ (entries_bytes d)). pose proof (zlen_nonneg _ (entries_bytes t)). rewrite token_stop by lia. reflexivity.
    - destruct U as (_ & _ & _ & F). rewrite SP in F. apply Forall_app in F as (F & _). unfold table_of. cbn [t_64 t_version t_ops]. eapply Forall_impl; [|exact F]. intros y (X1 & X2 & X3). split; [exact X1|]. split; [rewrite ops_of_ok; exact X2|exact X3].
    - pose proof (at_bound _ _ _ AT') as (_ & LB). rewrite zlen_app in LB. change (zlen [255]) with 1 in LB. unfold zlen in *. lia. }
  unfold getmacros. rewrite N1. change (accepts 0) with false. change (offset_from 0) with 0. destruct N2 as [->|([->| ->] & ->)]; exact G.
Qed.
