(* C61: evaluating a DWARF expression while unwinding gives what the stack machine of DWARF gives. *)
From Coq Require Import ZifyBool ZifyNat.
From Verif Require Import Base DwModel Slice LebProof LocModel EvalModel EvalSpec EvalProof Eval2Proof Eval3Proof Eval4Proof Eval5Proof.

Lemma steps_weak : forall C (R S : C -> C -> Prop), (forall c d, R c d -> S c d) -> forall n c d, steps R n c d -> steps S n c d.
Proof. intros C R S I n c d H. induction H; econstructor; eauto. Qed.
Lemma goes_weak : forall e (f g : Z -> Prop) p c d, (forall x, f x -> g x) -> goes false e f p c d -> goes true e g p c d.
Proof.
  intros e f g p c d FG G. assert (T : forall o x k, target false p o x k -> target true p o x k) by (intros o x k [H|(A & B & _)]; [left; exact H|right; auto]).
  destruct G; [eapply goes_on|eapply goes_past|eapply goes_bra|eapply goes_skip|eapply goes_cfa|eapply goes_value]; eauto.
Qed.
Lemma within_yields : forall e fr big (f g : Z -> Prop) p w, (forall x, f x -> g x) -> yields_within e fr big f p w -> yields e g p w.
Proof. intros e fr big f g p w FG (n & s & l & _ & ST & O). exists n, s, l. split; [|exact O]. eapply steps_weak; [|exact ST]. intros c d (G & _). exact (goes_weak e f g p c d FG G). Qed.

Section EVAL.
Variables (m : mach) (c32 : bool) (e : env) (cops ops : list op) (cp p : prog).
Hypothesis FIT : fits m c32 e.
Hypothesis SC : stands_for cops cp.
Hypothesis SF : stands_for ops p.
Let cfa := yields_within e false (h_big m) no_cfa cp.
Lemma cfa_iff : forall c, eval_cfa m cops = Ok c <-> cfa c.
Proof using FIT SC. intros c. unfold eval_cfa. apply (start_iff m c32 e false (Err DWFL_E_LIBDW) no_cfa cops cp FIT); [intros x; split; [discriminate|intros []]|intros x []|exact SC]. Qed.
Lemma cfa_word : forall c, cfa c -> word c.
Proof using FIT SC. intros c H. apply (within_words m c32 e false (Err DWFL_E_LIBDW) no_cfa cops cp c FIT); [intros x; split; [discriminate|intros []]|intros x []|exact SC|exact H]. Qed.
End EVAL.

(* The value of an expression is the value the stack machine yields; the limits are those of yields_within.
   Missing: values of more than 64 bits do not exist, but in a file of class 32 the stack machine has values
   of 32 bits, the library's have 64 (C61_width_refuted); and what lies beyond the limits (the other theorems
   below). *)
Theorem C61_eval_partial : forall m c32 e cops cp ops p w, fits m c32 e -> stands_for cops cp -> stands_for ops p ->
  eval m c32 (Ok cops) ops = Ok w <-> yields_within e true (h_big m) (yields_within e false (h_big m) no_cfa cp) p w.
Proof.
  intros m c32 e cops cp ops p w FIT SC SF. unfold eval. cbn [obind].
  apply (start_iff m c32 e true (eval_cfa m cops) (yields_within e false (h_big m) no_cfa cp) ops p FIT); [exact (cfa_iff m c32 e cops cp FIT SC)|exact (cfa_word m c32 e cops cp FIT SC)|exact SF].
Qed.
Print Assumptions C61_eval_partial.

(* Nothing is computed that the stack machine does not yield. *)
Theorem C61_sound : forall m c32 e cops cp ops p w, fits m c32 e -> stands_for cops cp -> stands_for ops p ->
  eval m c32 (Ok cops) ops = Ok w -> yields e (yields e no_cfa cp) p w.
Proof.
  intros m c32 e cops cp ops p w FIT SC SF H. apply (C61_eval_partial m c32 e cops cp ops p w FIT SC SF) in H. eapply within_yields; [|exact H].
  intros c. apply within_yields. intros x [].
Qed.
Print Assumptions C61_sound.
(* the CFA alone *)
Theorem C61_cfa_partial : forall m c32 e cops cp w, fits m c32 e -> stands_for cops cp -> eval_cfa m cops = Ok w <-> yields_within e false (h_big m) no_cfa cp w.
Proof. intros m c32 e cops cp w FIT SC. exact (cfa_iff m c32 e cops cp FIT SC w). Qed.
Print Assumptions C61_cfa_partial.

(* An expression in which every instruction that is come to is defined has a value or is refused. *)
Theorem C61_defined : forall m c32 e cops cp ops p, fits m c32 e -> stands_for cops cp -> stands_for ops p ->
  (forall n k s l x i, steps (goes true e no_cfa cp) n (0, [], false) (k, s, l) -> znth (p_ins cp) k = Some (x, i) -> defined false (h_big m) i s) ->
  (forall n k s l x i, steps (goes true e (yields e no_cfa cp) p) n (0, [], false) (k, s, l) -> znth (p_ins p) k = Some (x, i) -> defined true (h_big m) i s) ->
  (exists w, eval m c32 (Ok cops) ops = Ok w) \/ (exists x, eval m c32 (Ok cops) ops = Err x).
Proof.
  intros m c32 e cops cp ops p FIT SC SF D1 D2.
  assert (G1 : good (eval_cfa m cops)).
  { unfold eval_cfa. apply (start_good m c32 e false (Err DWFL_E_LIBDW) no_cfa cops cp FIT); [intros x; split; [discriminate|intros []]|intros x []|exact SC|exact Logic.I|].
    intros n k s l x i ST. apply (D1 n k s l x i). eapply steps_weak; [|exact ST]. intros c d (G & _). apply (goes_weak e no_cfa); [auto|exact G]. }
  assert (G2 : good (eval m c32 (Ok cops) ops)).
  { unfold eval. cbn [obind]. apply (start_good m c32 e true (eval_cfa m cops) (yields_within e false (h_big m) no_cfa cp) ops p FIT); [exact (cfa_iff m c32 e cops cp FIT SC)|exact (cfa_word m c32 e cops cp FIT SC)|exact SF|exact G1|].
    intros n k s l x i ST. apply (D2 n k s l x i). eapply steps_weak; [|exact ST]. intros c d (G & _). apply (goes_weak e (yields_within e false (h_big m) no_cfa cp)); [|exact G]. intros y. apply within_yields. intros z []. }
  destruct (eval m c32 (Ok cops) ops); [left; eauto|right; eauto|destruct G2|destruct G2].
Qed.
Print Assumptions C61_defined.

(* ---------------------------------------------------------------- the value is unique *)
Lemma reads_unique : forall e n a v w, reads e n a v -> reads e n a w -> v = w.
Proof.
  intros e n a v w (b & L & B & R & ->) (c & L' & C & R' & ->). f_equal. apply nth_ext with (d := 0) (d' := 0); [unfold zlen in *; lia|]. intros i HI.
  assert (E : znth b (Z.of_nat i) = znth c (Z.of_nat i)) by (rewrite <- R by (unfold zlen in *; lia); apply R'; unfold zlen in *; lia).
  unfold znth in E. unfold zlen in *. destruct (_ && _) eqn:C1 in E; [|lia]. destruct (_ && _) eqn:C2 in E; [|lia]. rewrite Nat2Z.id in E.
  rewrite (nth_error_nth' b 0) in E by lia. rewrite (nth_error_nth' c 0) in E by lia. injection E as ->. reflexivity.
Qed.
Lemma does_unique : forall e i s a b, does e i s a -> does e i s b -> a = b.
Proof.
  intros e i s a b A B. destruct A; inversion B; subst; try reflexivity; try congruence.
  - f_equal. eapply reads_unique; eassumption.
  - f_equal. eapply reads_unique; eassumption.
Qed.
Lemma does_plain : forall e i s a, does e i s a -> plain_ins i. Proof. intros e i s a D. destruct D; exact Logic.I. Qed.
Lemma expr_offset : forall (cf vl : bool) ops l j t i, Forall2 (fun o x => means o (snd x) /\ fst x = Some (o_off o)) ops l ->
  znth ((if cf then [(None, DCfa)] else []) ++ l ++ (if vl then [(None, DStackValue)] else [])) j = Some (Some t, i) ->
  exists o, znth ops (j - (if cf then 1 else 0)) = Some o /\ o_off o = t.
Proof.
  intros cf vl ops l j t i H N. destruct (Forall2_znth _ _ _ _ _ H) as [LL FZ]. set (q := if cf then [(@None Z, DCfa)] else []) in *. assert (C : zlen q = if cf then 1 else 0) by (subst q; destruct cf; reflexivity).
  pose proof (znth_range _ _ _ _ N) as RG. rewrite !zlen_app in RG. destruct (Z_lt_ge_dec j (zlen q)) as [LT|GE].
  { rewrite znth_app_l in N by lia. subst q. destruct cf; [|cbn in LT; lia]. assert (j = 0) as -> by (cbn in LT; lia). discriminate. }
  rewrite znth_app_r in N by lia. destruct (Z_lt_ge_dec (j - zlen q) (zlen l)) as [LT|GE2].
  - rewrite znth_app_l in N by lia. rewrite <- C. destruct (znth_in _ ops (j - zlen q) ltac:(lia)) as [o O]. exists o. split; [exact O|]. destruct (FZ _ _ _ O N) as [_ X]. cbn in X. congruence.
  - rewrite znth_app_r in N by lia. destruct vl; [|cbn in RG; lia]. assert (Z0 : j - zlen q - zlen l = 0) by (cbn in RG; lia). rewrite Z0 in N. discriminate.
Qed.
Lemma target_unique : forall ops p o d j k q x i, stands_for ops p -> znth (p_ins p) q = Some (x, i) -> branches i -> target true p o d j -> target true p o d k -> j = k.
Proof.
  intros ops p o d j k q x i SF N B. destruct SF as [ops l H|cf vl ops l len H S R LN].
  - exfalso. cbn [p_ins] in N. destruct (Forall2_znth _ _ _ _ _ H) as [LL FZ]. destruct (znth_in _ ops q ltac:(rewrite LL; exact (znth_range _ _ _ _ N))) as [oo O]. destruct (FZ _ _ _ O N) as [_ X]. exact (X B).
  - unfold target. cbn [p_ins p_len p_end]. set (t := o + 3 + d). intros [[i1 T1]|(J1 & E1 & _)] [[i2 T2]|(J2 & E2 & _)]; [| | |lia].
    + destruct (expr_offset _ _ _ _ _ _ _ H T1) as (o1 & N1 & O1). destruct (expr_offset _ _ _ _ _ _ _ H T2) as (o2 & N2 & O2).
      set (c := if cf then 1 else 0) in *. destruct (Z.lt_trichotomy j k) as [X|[X|X]]; [|exact X|].
      * pose proof (sorted_inc _ S (j - c) (k - c) _ _ ltac:(lia) N1 N2). lia.
      * pose proof (sorted_inc _ S (k - c) (j - c) _ _ ltac:(lia) N2 N1). lia.
    + destruct (expr_offset _ _ _ _ _ _ _ H T1) as (o1 & N1 & O1). apply znth_In in N1. rewrite Forall_forall in R. specialize (R o1 N1). lia.
    + destruct (expr_offset _ _ _ _ _ _ _ H T2) as (o1 & N1 & O1). apply znth_In in N1. rewrite Forall_forall in R. specialize (R o1 N1). lia.
Qed.
Lemma goes_unique : forall e (cfa : Z -> Prop) ops p c a b, stands_for ops p -> (forall x y, cfa x -> cfa y -> x = y) -> goes true e cfa p c a -> goes true e cfa p c b -> a = b.
Proof.
  intros e cfa ops p c a b SF CU A B. destruct A; inversion B; subst;
    repeat match goal with H : znth (p_ins p) ?kk = Some _, H' : znth (p_ins p) ?kk = Some _ |- _ => rewrite H in H'; injection H'; intros; subst; clear H' end;
    repeat match goal with H : does _ ?i _ _ |- _ => match i with DBra _ => inversion H | DSkip _ => inversion H | DCfa => inversion H | DStackValue => inversion H end end;
    try reflexivity; try congruence.
  - f_equal. f_equal. f_equal. eapply does_unique; eassumption.
  - f_equal. f_equal. eapply target_unique; [exact SF|eassumption|eexists; left; reflexivity|eassumption|eassumption].
  - f_equal. f_equal. eapply target_unique; [exact SF|eassumption|eexists; right; reflexivity|eassumption|eassumption].
  - f_equal. f_equal. f_equal. apply CU; assumption.
Qed.
Lemma end_stuck : forall t e cfa p s l c, goes t e cfa p (zlen (p_ins p), s, l) c -> False.
Proof. intros t e cfa p s l c G. inversion G; subst; match goal with X : znth _ _ = Some _ |- _ => apply znth_range in X; lia end. Qed.
Lemma yields_unique : forall e (cfa : Z -> Prop) ops p v w, stands_for ops p -> (forall x y, cfa x -> cfa y -> x = y) -> yields e cfa p v -> yields e cfa p w -> v = w.
Proof.
  intros e cfa ops p v w SF CU (n & s & l & ST & O) (n' & s' & l' & ST' & O').
  assert (X : (s, l) = (s', l')).
  { clear O O'. revert n' ST'. generalize (0 : Z, @nil Z, false) ST. clear ST. intros c ST. remember (zlen (p_ins p), s, l) as d eqn:D. revert D.
    induction ST as [c|n c c1 d G ST IH]; intros -> n' ST'.
    - inversion ST' as [|? ? c2 ? G' ST2]; subst; [congruence|]. exfalso. exact (end_stuck _ _ _ _ _ _ _ G').
    - inversion ST' as [|? ? c2 ? G' ST2]; subst; [exfalso; exact (end_stuck _ _ _ _ _ _ _ G)|]. rewrite (goes_unique e cfa ops p c c1 c2 SF CU G G') in *. exact (IH eq_refl _ ST2). }
  injection X as <- <-. destruct O as (x & r & -> & O), O' as (y & r' & Q & O'). injection Q as <- <-. destruct l; [eapply reads_unique; eassumption|congruence].
Qed.

(* The stack machine yields at most one value: if the library returns one, it is that. *)
Theorem C61_unique : forall m c32 e cops cp ops p v w, fits m c32 e -> stands_for cops cp -> stands_for ops p ->
  eval m c32 (Ok cops) ops = Ok v -> yields e (yields e no_cfa cp) p w -> v = w.
Proof.
  intros m c32 e cops cp ops p v w FIT SC SF H Y. apply (C61_sound m c32 e cops cp ops p v FIT SC SF) in H. apply (yields_unique e (yields e no_cfa cp) ops p v w SF); [|exact H|exact Y].
  intros x y. apply (yields_unique e no_cfa cops cp x y SC). intros a b [].
Qed.
Print Assumptions C61_unique.

(* ---------------------------------------------------------------- examples *)
(* 17 registers, all known: r0 = 2^32 - 1, r7 = 0x7000, r16 = 0x40100b; every byte of the memory is 1 *)
Definition ex_ebl (c32 : bool) : ebl := Ebl 17 (fun r => if (0 <=? r) && (r <? 17) then Some r else None) c32 (two64 - 1) 0.
Definition ex_regs : regs := Regs [131071; 0; 0] [4294967295; 1; 2; 3; 4; 5; 6; 28672; 8; 9; 10; 11; 12; 13; 14; 15; 4198411].
Definition ex_mach (c32 : bool) : mach := Mach (ex_ebl c32) ex_regs (Some (fun _ => Some (if c32 then 16843009 else 72340172838076673))) false 0.
Definition ex_env (c32 : bool) (w : Z) : env := Env (known (ex_ebl c32) ex_regs) (fun _ => Some 1) (if c32 then 4 else 8) true 0 w.
Lemma ones_reads : forall e n a v, v_little e = true -> (forall x, v_byte e x = Some 1) -> 0 <= n -> reads e n a v <-> v = le_value (repeat 1 (Z.to_nat n)).
Proof.
  intros e n a v L V N. unfold reads. rewrite L. split.
  - intros (b & LB & _ & R & ->). cbn [fval]. f_equal. apply nth_ext with (d := 0) (d' := 0); [rewrite repeat_length; unfold zlen in LB; lia|]. intros i HI.
    assert (E : znth b (Z.of_nat i) = Some 1) by (rewrite <- R by (unfold zlen in *; lia); apply V). unfold znth in E. destruct (_ && _); [|discriminate]. rewrite Nat2Z.id in E. rewrite (nth_error_nth' b 0) in E by exact HI. injection E as ->.
    symmetry. destruct (nth_error (repeat 1 (Z.to_nat n)) i) as [y|] eqn:Y.
    + rewrite (nth_error_nth _ _ 0 Y). apply nth_error_In in Y. exact (repeat_spec _ _ _ Y).
    + apply nth_error_None in Y. rewrite repeat_length in Y. unfold zlen in LB. lia.
  - intros ->. exists (repeat 1 (Z.to_nat n)). split; [rewrite zlen_repeat; lia|]. split; [apply Forall_forall; intros x X; apply repeat_spec in X; subst; unfold is_u8; lia|]. split; [|reflexivity].
    intros i I0. rewrite V. symmetry. apply znth_repeat. lia.
Qed.
Lemma ex_regs_ok : forall c32, regs_ok (ex_ebl c32) ex_regs.
Proof.
  intros c32. split; [cbn; lia|]. split; [reflexivity|]. split; [reflexivity|]. split; [repeat constructor; unfold is_u64; lia|]. split; [repeat constructor; lia|].
  intros r k. cbn [b_regno ex_ebl]. destruct (_ && _) eqn:E; [|discriminate]. intros Q. injection Q as <-. lia.
Qed.
Lemma ex_fits : forall c32, fits (ex_mach c32) c32 (ex_env c32 64).
Proof.
  intros c32. split; [apply ex_regs_ok|]. split; [reflexivity|]. split; [reflexivity|]. split; [reflexivity|]. split; [reflexivity|]. split; [reflexivity|].
  split; [intros a x Q; injection Q as <-; unfold is_u8; lia|]. intros a v A. rewrite ones_reads by (try reflexivity; destruct c32; cbn; lia). split.
  - intros ->. eexists. split; [reflexivity|]. destruct c32; reflexivity.
  - intros (rd & Q & V). injection Q as <-. injection V as <-. destruct c32; reflexivity.
Qed.
(* a step of the stack machine *)
Ltac st := eapply steps_more; [first [eapply goes_on; [reflexivity|constructor; try reflexivity] | eapply goes_value; reflexivity]|]; cbn [Z.add Pos.add Pos.succ Pos.add_carry].

(* The CFA of the procedure linkage table of x86-64: r7 + 8 + ((((r16) & 15) >= 11) << 3), and a register saved 16
   below the CFA: DW_OP_lit16 DW_OP_minus behind the CFA *)
Definition ex_cops : list op := [Op 119 8 0 0; Op 128 0 0 2; Op 63 0 0 4; Op 26 0 0 5; Op 59 0 0 6; Op 42 0 0 7; Op 51 0 0 8; Op 36 0 0 9; Op 34 0 0 10].
Definition ex_cp : prog := Prog [(Some 0, DBreg 7 8); (Some 2, DBreg 16 0); (Some 4, DConst 15); (Some 5, DBin BAnd); (Some 6, DConst 11); (Some 7, DBin BGe); (Some 8, DConst 3); (Some 9, DBin BShl); (Some 10, DBin BPlus)] 11 9.
Definition ex_ops : list op := [Op 156 0 0 (two64 - 1); Op 64 0 0 0; Op 28 0 0 1].
Definition ex_p : prog := Prog [(None, DCfa); (Some 0, DConst 16); (Some 1, DBin BMinus)] 2 3.
Lemma ex_stands : stands_for ex_cops ex_cp /\ stands_for ex_ops ex_p.
Proof.
  split.
  - unfold ex_cops, ex_cp. eapply (sf_expr false false [Op 119 8 0 0; Op 128 0 0 2; Op 63 0 0 4; Op 26 0 0 5; Op 59 0 0 6; Op 42 0 0 7; Op 51 0 0 8; Op 36 0 0 9; Op 34 0 0 10]
      [(Some 0, DBreg 7 8); (Some 2, DBreg 16 0); (Some 4, DConst 15); (Some 5, DBin BAnd); (Some 6, DConst 11); (Some 7, DBin BGe); (Some 8, DConst 3); (Some 9, DBin BShl); (Some 10, DBin BPlus)] 11).
    + repeat (constructor; [split; [cbn [snd]|reflexivity]|]); try constructor; try (cbn [In]; auto 20; fail).
      * apply (m_breg 7 8 0 0). lia.
      * apply (m_breg 16 0 0 2). lia.
      * apply (m_lit 15 0 0 4). lia.
      * apply (m_lit 11 0 0 6). lia.
      * apply (m_lit 3 0 0 8). lia.
    + repeat constructor.
    + repeat constructor; cbn; lia.
    + reflexivity.
  - unfold ex_ops, ex_p. apply (sf_expr true false [Op 64 0 0 0; Op 28 0 0 1] [(Some 0, DConst 16); (Some 1, DBin BMinus)] 2).
    + repeat (constructor; [split; [cbn [snd]|reflexivity]|]); try constructor; try (cbn [In]; auto 20; fail). apply (m_lit 16 0 0 0). lia.
    + repeat constructor.
    + repeat constructor; cbn; lia.
    + reflexivity.
Qed.
Example C61_eval_nonvacuous : exists m c32 e, fits m c32 e /\ stands_for ex_cops ex_cp /\ stands_for ex_ops ex_p /\
  eval_cfa m ex_cops = Ok 28688 /\ eval m c32 (Ok ex_cops) (ex_ops ++ [Op 159 0 0 2]) = Ok 28672 /\ eval m c32 (Ok ex_cops) ex_ops = Ok 72340172838076673.
Proof.
  exists (ex_mach false), false, (ex_env false 64). split; [apply ex_fits|]. split; [apply ex_stands|]. split; [apply ex_stands|].
  split; [vm_compute; reflexivity|]. split; vm_compute; reflexivity.
Qed.
Definition c0_ops : list op := [Op 146 7 8 0].
Definition c0 : prog := Prog [(None, DBreg 7 8)] 0 1.
Lemma c0_stands : stands_for c0_ops c0.
Proof. apply (sf_plain c0_ops [(None, DBreg 7 8)]). constructor; [|constructor]. split; [apply (m_bregx 7 8 0); lia|intros (d & [Q|Q]); discriminate]. Qed.
Example C61_defined_nonvacuous : stands_for c0_ops c0 /\
  (forall n k s l x i, steps (goes true (ex_env false 64) no_cfa c0) n (0, [], false) (k, s, l) -> znth (p_ins c0) k = Some (x, i) -> defined false false i s) /\
  (forall n k s l x i, steps (goes true (ex_env false 64) (yields (ex_env false 64) no_cfa c0) ex_p) n (0, [], false) (k, s, l) -> znth (p_ins ex_p) k = Some (x, i) -> defined true false i s).
Proof.
  split; [exact c0_stands|]. split; intros n k s l x i _ N; apply znth_In in N; cbn in N.
  - destruct N as [N|[]]. injection N as <- <-. exact Logic.I.
  - destruct N as [N|[N|[N|[]]]]; injection N as <- <-; exact Logic.I.
Qed.
Example C61_unique_nonvacuous : exists w, yields (ex_env false 64) (yields (ex_env false 64) no_cfa ex_cp) ex_p w.
Proof.
  exists 72340172838076673. destruct ex_stands as [A B]. apply (C61_sound (ex_mach false) false (ex_env false 64) ex_cops ex_cp ex_ops ex_p); [apply ex_fits|exact A|exact B|vm_compute; reflexivity].
Qed.

Ltac nobr := intros (? & [?|?]); discriminate.

(* DW_OP_deref_size with 4 bytes in a 64-bit file: the mask is (1 << 32) - 1 computed in int, which is undefined. *)
Theorem C61_deref_size_refuted : exists m e ops p w, fits m false e /\ stands_for ops p /\ yields e no_cfa p w /\ eval m false (Ok []) ops = UB.
Proof.
  exists (ex_mach false), (ex_env false 64), [Op 50 0 0 0; Op 148 4 0 0], (Prog [(None, DConst 2); (None, DDerefSize 4)] 0 2), 16843009.
  split; [apply ex_fits|]. split.
  { apply (sf_plain [Op 50 0 0 0; Op 148 4 0 0] [(None, DConst 2); (None, DDerefSize 4)]). constructor; [split; [apply (m_lit 2 0 0 0); lia|nobr]|]. constructor; [split; [apply (m_deref_size 4 0 0); lia|nobr]|constructor]. }
  split; [|vm_compute; reflexivity]. exists 2%nat, [16843009], false. split; [|exists 16843009, []; auto].
  eapply steps_more; [eapply goes_on; [reflexivity|apply does_const]|]. eapply steps_more; [eapply goes_on; [reflexivity|apply does_deref_size with (v := 16843009)]|].
  - cbn. lia.
  - apply ones_reads; [reflexivity|reflexivity|lia|reflexivity].
  - constructor.
Qed.
Print Assumptions C61_deref_size_refuted.
(* DW_OP_deref_size in the expression of the CFA follows a null pointer. *)
Theorem C61_null_refuted : exists m e cops cp w, fits m false e /\ stands_for cops cp /\ yields e no_cfa cp w /\ eval_cfa m cops = UB.
Proof.
  exists (ex_mach false), (ex_env false 64), [Op 50 0 0 0; Op 148 1 0 0], (Prog [(None, DConst 2); (None, DDerefSize 1)] 0 2), 1.
  split; [apply ex_fits|]. split.
  { apply (sf_plain [Op 50 0 0 0; Op 148 1 0 0] [(None, DConst 2); (None, DDerefSize 1)]). constructor; [split; [apply (m_lit 2 0 0 0); lia|nobr]|]. constructor; [split; [apply (m_deref_size 1 0 0); lia|nobr]|constructor]. }
  split; [|vm_compute; reflexivity]. exists 2%nat, [1], false. split; [|exists 1, []; auto].
  eapply steps_more; [eapply goes_on; [reflexivity|apply does_const]|]. eapply steps_more; [eapply goes_on; [reflexivity|apply does_deref_size with (v := 1)]|].
  - cbn. lia.
  - apply ones_reads; [reflexivity|reflexivity|lia|reflexivity].
  - constructor.
Qed.
Print Assumptions C61_null_refuted.
(* A shift by 64, and the negation and the quotient that leave int64_t, are undefined. *)
Theorem C61_overflow_refuted : exists m e, fits m false e /\
  (exists ops p w, stands_for ops p /\ yields e no_cfa p w /\ p_ins p = [(None, DConst 1); (None, DConst 64); (None, DBin BShl)] /\ eval m false (Ok []) ops = UB) /\
  (exists ops p w, stands_for ops p /\ yields e no_cfa p w /\ p_ins p = [(None, DConst two63); (None, DUn UNeg)] /\ eval m false (Ok []) ops = UB) /\
  (exists ops p w, stands_for ops p /\ yields e no_cfa p w /\ p_ins p = [(None, DConst two63); (None, DConst (-1)); (None, DBin BDiv)] /\ eval m false (Ok []) ops = UB).
Proof.
  exists (ex_mach false), (ex_env false 64). split; [apply ex_fits|]. split; [|split].
  - exists [Op 49 0 0 0; Op 8 64 0 0; Op 36 0 0 0], (Prog [(None, DConst 1); (None, DConst 64); (None, DBin BShl)] 0 3), 0. split; [|split; [|split; [reflexivity|vm_compute; reflexivity]]].
    + apply (sf_plain [Op 49 0 0 0; Op 8 64 0 0; Op 36 0 0 0] [(None, DConst 1); (None, DConst 64); (None, DBin BShl)]). constructor; [split; [apply (m_lit 1 0 0 0); lia|nobr]|]. constructor; [split; [apply (m_const 8 64 0 0); cbn; auto|nobr]|]. constructor; [split; [apply m_bin; cbn; auto 20|nobr]|constructor].
    + exists 3%nat, [0], false. split; [|exists 0, []; auto]. eapply steps_more; [eapply goes_on; [reflexivity|apply does_const]|]. eapply steps_more; [eapply goes_on; [reflexivity|apply does_const]|].
      eapply steps_more; [eapply goes_on; [reflexivity|apply does_bin with (z := 0); vm_compute; reflexivity]|]. constructor.
  - exists [Op 14 two63 0 0; Op 31 0 0 0], (Prog [(None, DConst two63); (None, DUn UNeg)] 0 2), two63. split; [|split; [|split; [reflexivity|vm_compute; reflexivity]]].
    + apply (sf_plain [Op 14 two63 0 0; Op 31 0 0 0] [(None, DConst two63); (None, DUn UNeg)]). constructor; [split; [apply (m_const 14 two63 0 0); cbn; auto 20|nobr]|]. constructor; [split; [apply m_neg|nobr]|constructor].
    + exists 2%nat, [two63], false. split; [|exists two63, []; auto]. eapply steps_more; [eapply goes_on; [reflexivity|apply does_const]|]. eapply steps_more; [eapply goes_on; [reflexivity|apply (does_un _ UNeg)]|].
      apply steps_none.
  - exists [Op 14 two63 0 0; Op 9 (two64 - 1) 0 0; Op 27 0 0 0], (Prog [(None, DConst two63); (None, DConst (-1)); (None, DBin BDiv)] 0 3), two63. split; [|split; [|split; [reflexivity|vm_compute; reflexivity]]].
    + apply (sf_plain [Op 14 two63 0 0; Op 9 (two64 - 1) 0 0; Op 27 0 0 0] [(None, DConst two63); (None, DConst (-1)); (None, DBin BDiv)]). constructor; [split; [apply (m_const 14 two63 0 0); cbn; auto 20|nobr]|]. constructor; [split; [apply (m_const 9 (-1) 0 0); cbn; auto 20|nobr]|]. constructor; [split; [apply m_bin; cbn; auto 20|nobr]|constructor].
    + exists 3%nat, [two63], false. split; [|exists two63, []; auto]. eapply steps_more; [eapply goes_on; [reflexivity|apply does_const]|]. eapply steps_more; [eapply goes_on; [reflexivity|apply does_const]|].
      eapply steps_more; [eapply goes_on; [reflexivity|apply does_bin with (z := two63); vm_compute; reflexivity]|]. apply steps_none.
Qed.
Print Assumptions C61_overflow_refuted.
(* A branch to the end of the expression is refused. *)
Theorem C61_end_refuted : exists m e ops p w, fits m false e /\ stands_for ops p /\ yields e no_cfa p w /\ eval m false (Ok []) ops = Err DWFL_E_INVALID_DWARF.
Proof.
  exists (ex_mach false), (ex_env false 64), [Op 49 0 0 0; Op 47 0 0 1], (Prog [(Some 0, DConst 1); (Some 1, DSkip 0)] 4 2), 1.
  split; [apply ex_fits|]. split.
  { apply (sf_expr false false [Op 49 0 0 0; Op 47 0 0 1] [(Some 0, DConst 1); (Some 1, DSkip 0)] 4); [|repeat constructor|repeat constructor; cbn; lia|reflexivity].
    constructor; [split; [apply (m_lit 1 0 0 0); lia|reflexivity]|]. constructor; [split; [apply (m_skip 0 0 1); lia|reflexivity]|constructor]. }
  split; [|vm_compute; reflexivity]. exists 2%nat, [1], false. split; [|exists 1, []; auto].
  eapply steps_more; [eapply goes_on; [reflexivity|apply does_const]|]. eapply steps_more; [eapply goes_skip with (k' := 2); [reflexivity|]|].
  - right. cbn. auto with zarith.
  - apply steps_none.
Qed.
Print Assumptions C61_end_refuted.
(* DW_OP_deref_size with one byte fails if only that byte, and not a whole word, can be read. *)
Theorem C61_overread_refuted : exists m e ops p w, fits m false e /\ stands_for ops p /\ yields e no_cfa p w /\ eval m false (Ok []) ops = Err CALLBACK_FAILED.
Proof.
  exists (Mach (ex_ebl false) ex_regs (Some (fun _ => None)) false 0), (Env (known (ex_ebl false) ex_regs) (fun a => if a =? 2 then Some 7 else None) 8 true 0 64),
    [Op 50 0 0 0; Op 148 1 0 0], (Prog [(None, DConst 2); (None, DDerefSize 1)] 0 2), 7.
  split.
  { split; [apply ex_regs_ok|]. split; [reflexivity|]. split; [reflexivity|]. split; [reflexivity|]. split; [reflexivity|]. split; [reflexivity|].
    split; [cbn; intros a x; destruct (a =? 2); [intros Q; injection Q as <-; unfold is_u8; lia|discriminate]|]. cbn [v_asize h_read]. intros a v A. split; [|intros (rd & Q & V); injection Q as <-; discriminate].
    intros (b & L & _ & R & _). exfalso. cbn [v_byte] in R. pose proof (R 0 ltac:(lia)) as R0. pose proof (R 1 ltac:(lia)) as R1.
    destruct (znth_in _ b 0 ltac:(lia)) as [x0 X0]. destruct (znth_in _ b 1 ltac:(lia)) as [x1 X1]. rewrite X0 in R0. rewrite X1 in R1. destruct (a + 0 =? 2) eqn:E0; [|discriminate]. destruct (a + 1 =? 2) eqn:E1; [lia|discriminate]. }
  split.
  { apply (sf_plain [Op 50 0 0 0; Op 148 1 0 0] [(None, DConst 2); (None, DDerefSize 1)]). constructor; [split; [apply (m_lit 2 0 0 0); lia|nobr]|]. constructor; [split; [apply (m_deref_size 1 0 0); lia|nobr]|constructor]. }
  split; [|vm_compute; reflexivity]. exists 2%nat, [7], false. split; [|exists 7, []; auto].
  eapply steps_more; [eapply goes_on; [reflexivity|apply does_const]|]. eapply steps_more; [eapply goes_on; [reflexivity|apply does_deref_size with (v := 7)]|].
  - cbn. lia.
  - exists [7]. split; [reflexivity|]. split; [repeat constructor; unfold is_u8; lia|]. split; [|reflexivity]. intros i I0. assert (i = 0) as -> by lia. reflexivity.
  - constructor.
Qed.
Print Assumptions C61_overread_refuted.
(* In a file of class 32 the values have 32 bits: a register that holds -1 is below 0.  The library has 64 bits
   and finds it above. *)
Theorem C61_width_refuted : exists m e ops p, fits m true e /\ stands_for ops p /\
  yields (Env (v_reg e) (v_byte e) (v_asize e) (v_little e) (v_bias e) 32) no_cfa p 1 /\ eval m true (Ok []) ops = Ok 0.
Proof.
  exists (ex_mach true), (ex_env true 64), [Op 112 0 0 0; Op 48 0 0 0; Op 45 0 0 0], (Prog [(None, DBreg 0 0); (None, DConst 0); (None, DBin BLt)] 0 3).
  split; [apply ex_fits|]. split.
  { apply (sf_plain [Op 112 0 0 0; Op 48 0 0 0; Op 45 0 0 0] [(None, DBreg 0 0); (None, DConst 0); (None, DBin BLt)]). constructor; [split; [apply (m_breg 0 0 0 0); lia|nobr]|]. constructor; [split; [apply (m_lit 0 0 0 0); lia|nobr]|]. constructor; [split; [apply m_bin; cbn; auto 20|nobr]|constructor]. }
  split; [|vm_compute; reflexivity]. exists 3%nat, [1], false. split; [|exists 1, []; auto].
  eapply steps_more; [eapply goes_on; [reflexivity|apply does_breg with (v := 4294967295); reflexivity]|]. eapply steps_more; [eapply goes_on; [reflexivity|apply does_const]|].
  eapply steps_more; [eapply goes_on; [reflexivity|apply does_bin with (z := 1); vm_compute; reflexivity]|]. constructor.
Qed.
Print Assumptions C61_width_refuted.
(* The number of a register is cut to 32 bits: DW_OP_regx 2^32 reads register 0. *)
Theorem C61_regno_refuted : exists m e, fits m false e /\ v_reg e two32 = None /\ eval m false (Ok []) [Op 144 two32 0 0] = Ok 4294967295.
Proof. exists (ex_mach false), (ex_env false 64). split; [apply ex_fits|]. split; vm_compute; reflexivity. Qed.
Print Assumptions C61_regno_refuted.
