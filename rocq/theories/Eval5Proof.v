(* The evaluator as a whole. *)
From Coq Require Import ZifyBool ZifyNat.
From Verif Require Import Base DwModel Slice LebProof LocModel EvalModel EvalSpec EvalProof Eval2Proof Eval3Proof Eval4Proof.

Definition good {A} (x : outcome A) : Prop := match x with UB | Fuel => False | _ => True end.
Lemma good_bind : forall A B (x : outcome A) (f : A -> outcome B), good x -> (forall v, x = Ok v -> good (f v)) -> good (v <- x ;; f v).
Proof. intros A B x f G H. destruct x; cbn in *; auto. Qed.
Lemma good_push : forall v s, good (push v s). Proof. intros. unfold push. destruct (_ <=? _); exact Logic.I. Qed.
Lemma good_pop : forall s, good (pop s). Proof. intros [|]; exact Logic.I. Qed.
Ltac gd := repeat first [exact Logic.I | match goal with H : forall _, good _ |- _ => apply H end | apply good_push | apply good_pop | apply good_bind; [|intros ? ?] | match goal with |- good (match ?x with pair _ _ => _ end) => destruct x end].
Ltac headg := repeat match goal with
  | |- good (if ?b then _ else _) =>
    first [ let v := eval vm_compute in b in first [constr_eq v true; change b with true | constr_eq v false; change b with false]
          | replace b with true by (unfold in_range, among; cbn [existsb]; lia)
          | replace b with false by (unfold in_range, among; cbn [existsb]; lia) ]; cbv iota
  end.

Section EVAL.
Variables (m : mach) (c32 : bool) (e : env) (frame : bool) (cfao : outcome Z) (cfa : Z -> Prop) (ops : list op) (p : prog).
Hypothesis FIT : fits m c32 e.
Hypothesis CF : forall c, cfao = Ok c <-> cfa c.
Hypothesis CW : forall c, cfa c -> word c.
Hypothesis SF : stands_for ops p.
Let fr : option bool := if frame then Some c32 else None.

Lemma step_good : forall k o s l x i, znth ops k = Some o -> znth (p_ins p) k = Some (x, i) -> Forall word s -> defined frame (h_big m) i s -> good cfao -> good (step m fr cfao ops k o s l).
Proof using FIT SF.
  clear CW CF cfa. intros k o s l x i N NI WS D GC. destruct (Forall2_znth _ _ _ _ _ (stands_means _ _ SF)) as [LL FZ]. pose proof (FZ _ _ _ N NI) as M. cbn [snd] in M.
  assert (GR : forall r, good (get_reg (h_ebl m) (h_regs m) r)) by (intros r; pose proof (get_reg_ub m c32 e FIT r) as X; unfold get_reg in *; destruct FIT as (RO & _); rewrite (reg_get_known _ _ _ RO) in *; cbn [obind] in *; destruct (known _ _ _); exact Logic.I).
  assert (GW : forall a, good (read_word m a)) by (intros a; unfold read_word; destruct (h_read m) as [rd|]; [destruct (rd a)|]; exact Logic.I).
  assert (GB : good (branch ops o)) by (unfold branch; destruct (bsearch _ _ _ _ _); exact Logic.I).
  inversion M; subst; unfold step; cbn [o_atom o_num o_num2 o_off] in *; headg; try (gd; fail).
  - assert (XX : 8 <= x0 <= 17) by (cbn [In] in *; lia). headg. gd.
  - apply good_bind; [|intros; gd]. destruct (zlen s <=? n) eqn:E; [exact Logic.I|]. destruct (znth_in _ s n ltac:(lia)) as [v V]. rewrite V. gd.
  - apply good_bind; [|intros; gd]. destruct (h_read m); [|exact Logic.I]. destruct s as [|a s]; [exact Logic.I|]. cbn [pop obind]. gd.
  - apply good_bind; [|intros; gd]. destruct (h_read m); [|exact Logic.I]. destruct s as [|a s]; [exact Logic.I|]. cbn [pop obind]. cbn [defined] in D. destruct D as [D1 D2].
    change (148 =? 148) with true. cbv iota. apply good_bind; [apply GW|intros w Q]. apply good_bind; [|intros; gd]. unfold fr. rewrite D1. unfold narrow. destruct (_ <? n) eqn:E1; [exact Logic.I|]. destruct (h_big m); [exact Logic.I|].
    destruct (n <? 8) eqn:E2; [|exact Logic.I]. destruct (32 <=? n * 8) eqn:E3; [|exact Logic.I]. destruct D2 as [D2|[D2|D2]]; [discriminate|lia|lia].
  - apply good_bind; [|intros; gd]. destruct s as [|a s]; [exact Logic.I|]. cbn [pop obind]. apply good_bind; [|intros; gd]. unfold unop. cbn [o_atom Z.eqb Pos.eqb]. cbn [defined] in D. inversion WS as [|? ? WA ?]; subst.
    rewrite (s64_signed a WA). unfold signed, word in *. change (2 ^ (64 - 1)) with two63. change (2 ^ 64) with two64. destruct (_ =? _) eqn:E; [|exact Logic.I]. destruct (a <? two63) eqn:E2; lia.
  - apply good_bind; [|intros; gd]. destruct s as [|a s]; [exact Logic.I|]. cbn [pop obind]. apply good_bind; [|intros; gd]. unfold unop. cbn [o_atom Z.eqb Pos.eqb]. cbn [defined] in D. inversion WS as [|? ? WA ?]; subst.
    rewrite (s64_signed a WA). unfold signed, word in *. change (2 ^ (64 - 1)) with two63. change (2 ^ 64) with two64. destruct (_ =? _) eqn:E; [|exact Logic.I]. destruct (a <? two63) eqn:E2; lia.
  - match goal with H : In (x0, _) _ |- _ => pose proof H as IX; assert (XX : 26 <= x0 <= 46 /\ x0 <> 40 /\ x0 <> 31 /\ x0 <> 32 /\ x0 <> 35) by (clear - H; cbn [In] in H; repeat (destruct H as [H|H]; [injection H; intros; lia|]); destruct H) end. headg.
    apply good_bind; [|intros; gd]. destruct s as [|y [|z s]]; [exact Logic.I|exact Logic.I|]. cbn [pop obind]. apply good_bind; [|intros; gd]. inversion WS as [|? ? WA WS1]; subst. inversion WS1 as [|? ? WC WS2]; subst.
    clear - IX D WA WC. cbn [In] in IX. repeat (destruct IX as [IX|IX]; [injection IX as <- <-; unfold binop; cbn [Z.eqb Pos.eqb]; cbn [defined] in D; try exact Logic.I|]); [| | | | |destruct IX].
    + destruct (y =? 0); [exact Logic.I|]. rewrite (s64_signed y WA), (s64_signed z WC). destruct (_ && _) eqn:E; [|exact Logic.I]. apply D. unfold signed, word in *. change (2 ^ (64 - 1)) with two63 in *. change (2 ^ 64) with two64 in *. destruct (z <? two63) eqn:E2, (y <? two63) eqn:E3; lia.
    + destruct (y =? 0); exact Logic.I.
    + replace (64 <=? y) with false by lia. exact Logic.I.
    + replace (64 <=? y) with false by lia. exact Logic.I.
    + rewrite (s64_signed y WA). unfold signed, word in *. change (2 ^ (64 - 1)) with two63. change (2 ^ 64) with two64. replace (y <? two63) with true by lia. replace (y <? 0) with false by lia. replace (64 <=? y) with false by lia. exact Logic.I.
  - destruct s as [|v s]; [exact Logic.I|]. cbn [pop obind]. destruct (v =? 0); [exact Logic.I|]. apply good_bind; [exact GB|intros; gd].
  - apply good_bind; [exact GB|intros; gd].
  - destruct (c <- cfao ;; push c s) as [| | |] eqn:E; try exact Logic.I; assert (G : good (c <- cfao ;; push c s)) by (apply good_bind; [exact GC|intros; gd]); rewrite E in G; destruct G.
  - destruct (x0 =? 241) eqn:E; headg; exact Logic.I.
Qed.

Lemma reads_w : forall n a v, 0 <= n <= v_asize e -> reads e n a v -> word v.
Proof using FIT frame. clear CW CF SF cfa. intros n a v N R. apply (reads_word e n a v); [|exact R]. pose proof (asize_cases _ _ _ FIT). destruct c32; lia. Qed.
Lemma does_words : forall i s s', Forall word s -> does e i s s' -> (exists o, means o i) -> Forall word s'.
Proof using FIT frame.
  clear CW CF SF cfa. assert (WR : forall v, word (wrap (v_width e) v)) by (intros v; rewrite (W64 _ _ _ FIT); unfold wrap, word; change (2 ^ 64) with two64; apply Z.mod_pos_bound; lia).
  assert (B64 : forall a b, word a -> word b -> word (Z.land a b) /\ word (Z.lor a b) /\ word (Z.lxor a b)).
  { intros a b A B. unfold word in *. assert (P : forall z, 0 <= z -> (forall n, 64 <= n -> Z.testbit z n = false) -> z < two64).
    { intros z Z0 T. destruct (Z.eq_dec z 0) as [->|NZ]; [lia|]. change two64 with (2 ^ 64). apply Z.log2_lt_pow2; [lia|]. destruct (Z_lt_ge_dec (Z.log2 z) 64) as [|GE]; [assumption|].
      pose proof (Z.bit_log2 z ltac:(lia)) as X. rewrite T in X by lia. discriminate. }
    assert (Q : forall z, 0 <= z < two64 -> forall n, 64 <= n -> Z.testbit z n = false).
    { intros z Z0 n N. destruct (Z.eq_dec z 0) as [->|NZ]; [apply Z.bits_0|]. apply Z.bits_above_log2; [lia|]. assert (Z.log2 z < 64) by (apply Z.log2_lt_pow2; [lia|change (2 ^ 64) with two64; lia]). lia. }
    split; [|split]; (split; [|apply P]); try (apply Z.land_nonneg; lia); try (apply Z.lor_nonneg; lia); try (apply Z.lxor_nonneg; lia);
      intros n N; rewrite ?Z.land_spec, ?Z.lor_spec, ?Z.lxor_spec, (Q a A n N), (Q b B n N); reflexivity. }
  intros i s s' WS D [o M]. destruct D; inversion WS as [|? ? W1 WS1]; subst; try (inversion WS1 as [|? ? W2 WS2]; subst);
    repeat match goal with |- Forall word (_ :: _) => constructor end; try assumption; try apply WR; try (constructor; fail).
  all: try (match goal with H : v_reg e _ = Some _ |- _ => destruct FIT as (RO & VR & _); rewrite VR in H by (inversion M; subst; lia); exact (known_word _ _ _ _ RO H) end).
  all: try (match goal with H : znth _ _ = Some _ |- _ => apply znth_In in H; rewrite Forall_forall in WS; apply WS; exact H end).
  all: try (match goal with H : reads e _ _ _ |- _ => eapply reads_w; [|exact H]; pose proof (asize_cases _ _ _ FIT); destruct c32; lia end).
  all: try (inversion WS2; assumption).
  all: try (match goal with |- word (un _ ?u _) => rewrite (W64 _ _ _ FIT) in *; destruct u; cbn [un];
    [unfold wrap, word; change (2 ^ 64) with two64; apply Z.mod_pos_bound; lia|unfold wrap, word; change (2 ^ 64) with two64; apply Z.mod_pos_bound; lia|unfold word in *; change (2 ^ 64) with two64; lia] end).
  - (* binary *) rewrite (W64 _ _ _ FIT) in *. match goal with H : bin _ _ _ _ = Some _ |- _ => rename H into HB end. destruct (B64 x y W2 W1) as (BA & BO & BX).
    assert (TR : forall b, word (truth b)) by (intros []; unfold word, truth; lia).
    destruct b; cbn [bin] in HB; try (injection HB as <-; first [exact BA | exact BO | exact BX | apply TR | apply WR]; fail); try (destruct (y =? 0) eqn:Y0; [discriminate|]; injection HB as <-; apply WR).
    + destruct (y =? 0) eqn:Y0; [discriminate|]. injection HB as <-. unfold word in *. pose proof (Z.mod_pos_bound x y ltac:(lia)). lia.
    + injection HB as <-. unfold word in *. pose proof (Z.pow_pos_nonneg 2 y ltac:(lia) ltac:(lia)). pose proof (Z.div_pos x (2 ^ y) ltac:(lia) ltac:(lia)). pose proof (Z.div_le_upper_bound x (2 ^ y) x ltac:(lia) ltac:(nia)). lia.
Qed.
Lemma goes_words : forall k s l k' s' l', Forall word s -> 0 <= k <= zlen (p_ins p) -> goes_within e frame (h_big m) cfa p (k, s, l) (k', s', l') -> Forall word s' /\ 0 <= k' <= zlen (p_ins p) /\ zlen s' <= 256.
Proof using FIT CF CW SF.
  intros k s l k' s' l' WS K (G & L & _). cbn [fst snd] in L. destruct (Forall2_znth _ _ _ _ _ (stands_means _ _ SF)) as [LL FZ].
  assert (PE : 0 <= p_end p) by (destruct SF; cbn [p_end]; [apply zlen_nonneg|pose proof (zlen_nonneg _ l0); destruct cf; lia]).
  assert (TG : forall o d j, target false p o d j -> 0 <= j <= zlen (p_ins p)) by (intros o d j [[i X]|(-> & _ & [X|X])]; [apply znth_range in X; lia|discriminate|lia]).
  inversion G; subst; (split; [|split; [|exact L]]); try (match goal with H : znth _ _ = Some _ |- _ => apply znth_range in H; lia end); try (eapply TG; eassumption); try assumption.
  - match goal with H : znth (p_ins p) k = Some (?o, ?i), D : does _ _ _ _ |- _ => destruct (znth_in _ ops k ltac:(rewrite LL; exact (znth_range _ _ _ _ H))) as [oo OO]; pose proof (FZ _ _ _ OO H) as M; cbn in M; exact (does_words i s s' WS D (ex_intro _ _ M)) end.
  - inversion WS; assumption.
  - inversion WS; assumption.
  - constructor; [apply CW; assumption|assumption].
Qed.
Lemma finish_iff : forall s l w, Forall word s -> finish m s l = Ok w <-> outcome_is e s l w.
Proof using FIT frame.
  clear CW CF SF cfa. intros s l w WS. unfold finish, outcome_is. destruct s as [|v s]; cbn [pop obind]; [split; [discriminate|intros (v & r & Q & _); discriminate]|]. inversion WS; subst. split.
  - intros H. exists v, s. split; [reflexivity|]. destruct l; [apply (read_word_iff _ _ _ FIT) in H; assumption|injection H as <-; reflexivity].
  - intros (v' & r & Q & H). injection Q as <- <-. destruct l; [apply (read_word_iff _ _ _ FIT); assumption|subst; reflexivity].
Qed.
Lemma run_iff : forall fuel k s l w, Forall word s -> zlen s <= 256 -> 0 <= k <= zlen (p_ins p) ->
  run fuel m fr cfao ops k s l = Ok w <->
  exists n s' l', (n <= fuel)%nat /\ steps (goes_within e frame (h_big m) cfa p) n (k, s, l) (zlen (p_ins p), s', l') /\ outcome_is e s' l' w.
Proof using FIT CF CW SF.
  destruct (Forall2_znth _ _ _ _ _ (stands_means _ _ SF)) as [LL FZ].
  induction fuel as [|f IH]; intros k s l w WS LS K; cbn [run].
  - destruct (znth ops k) as [o|] eqn:N.
    + split; [discriminate|]. intros (n & s' & l' & LE & ST & _). assert (n = O) by lia. subst n. inversion ST; subst. apply znth_range in N. lia.
    + assert (k = zlen (p_ins p)) as -> by (destruct (Z.eq_dec k (zlen (p_ins p))) as [|NE]; [assumption|]; destruct (znth_in _ ops k ltac:(lia)) as [o O]; congruence).
      rewrite (finish_iff s l w WS). split; [intros H; exists O, s, l; split; [lia|split; [constructor|exact H]]|]. intros (n & s' & l' & LE & ST & H). assert (n = O) by lia. subst n. inversion ST; subst. exact H.
  - destruct (znth ops k) as [o|] eqn:N.
    + rewrite bind_iff. split.
      * intros ([[k' s'] l'] & S1 & R). apply (step_iff m c32 e frame cfao cfa ops p FIT CF SF k o s l k' s' l' N WS LS) in S1. destruct (goes_words _ _ _ _ _ _ WS K S1) as (WS' & K' & LS').
        apply (IH k' s' l' w WS' LS' K') in R. destruct R as (n & s2 & l2 & LE & ST & H). exists (S n), s2, l2. split; [lia|]. split; [econstructor; eassumption|exact H].
      * intros (n & s2 & l2 & LE & ST & H). inversion ST as [|n' ? [[k' s'] l'] ? G ST']; subst; [apply znth_range in N; lia|]. exists (k', s', l').
        split; [apply (step_iff m c32 e frame cfao cfa ops p FIT CF SF k o s l k' s' l' N WS LS); exact G|]. destruct (goes_words _ _ _ _ _ _ WS K G) as (WS' & K' & LS').
        apply (IH k' s' l' w WS' LS' K'). exists n', s2, l2. split; [lia|]. split; [exact ST'|exact H].
    + assert (k = zlen (p_ins p)) as -> by (destruct (Z.eq_dec k (zlen (p_ins p))) as [|NE]; [assumption|]; destruct (znth_in _ ops k ltac:(lia)) as [o O]; congruence).
      rewrite (finish_iff s l w WS). split; [intros H; exists O, s, l; split; [lia|split; [constructor|exact H]]|]. intros (n & s' & l' & LE & ST & H). inversion ST as [|n' ? [[k' s2] l2] ? G ST']; subst; [exact H|].
      exfalso. destruct G as (G & _). inversion G; subst; match goal with X : znth _ _ = Some _ |- _ => apply znth_range in X; lia end.
Qed.
Lemma run_good : forall fuel k s l, Forall word s -> zlen s <= 256 -> 0 <= k <= zlen (p_ins p) -> good cfao ->
  (forall n k' s' l' x i, steps (goes_within e frame (h_big m) cfa p) n (k, s, l) (k', s', l') -> znth (p_ins p) k' = Some (x, i) -> defined frame (h_big m) i s') ->
  good (run fuel m fr cfao ops k s l).
Proof using FIT CF CW SF.
  destruct (Forall2_znth _ _ _ _ _ (stands_means _ _ SF)) as [LL FZ].
  assert (GF : forall s l, good (finish m s l)) by (intros s l; unfold finish; destruct s as [|v s]; cbn [pop obind]; [exact Logic.I|]; destruct l; [|exact Logic.I]; unfold read_word; destruct (h_read m) as [rd|]; [destruct (rd v)|]; exact Logic.I).
  induction fuel as [|f IH]; intros k s l WS LS K GC D; cbn [run].
  - destruct (znth ops k); [exact Logic.I|apply GF].
  - destruct (znth ops k) as [o|] eqn:N; [|apply GF]. destruct (znth_in _ (p_ins p) k ltac:(pose proof (znth_range _ _ _ _ N); lia)) as [[x i] NI].
    apply good_bind; [apply (step_good k o s l x i N NI WS (D O k s l x i (steps_none _ _) NI) GC)|]. intros [[k' s'] l'] S1.
    apply (step_iff m c32 e frame cfao cfa ops p FIT CF SF k o s l k' s' l' N WS LS) in S1. destruct (goes_words _ _ _ _ _ _ WS K S1) as (WS' & K' & LS').
    apply (IH k' s' l' WS' LS' K' GC). intros n k2 s2 l2 x2 i2 ST. apply (D (S n) k2 s2 l2 x2 i2). econstructor; eassumption.
Qed.
Lemma start_iff : forall w, start m fr cfao ops = Ok w <-> yields_within e frame (h_big m) cfa p w.
Proof using FIT CF CW SF.
  intros w. destruct (Forall2_znth _ _ _ _ _ (stands_means _ _ SF)) as [LL FZ]. unfold start, yields_within.
  assert (R := run_iff (Z.to_nat 4096) 0 [] false w (Forall_nil _) ltac:(cbn; lia) ltac:(pose proof (zlen_nonneg _ (p_ins p)); lia)).
  destruct ops as [|o r] eqn:EO.
  - split; [discriminate|]. intros (n & s & l & _ & ST & v & r & -> & _). exfalso. assert (Z0 : zlen (p_ins p) = 0) by (rewrite <- LL; reflexivity). rewrite Z0 in ST.
    inversion ST as [|n' ? [[k' s2] l2] ? (G & _) ST']; subst. inversion G; subst; match goal with X : znth _ _ = Some _ |- _ => apply znth_range in X; lia end.
  - rewrite R. split; intros (n & s & l & LE & X); exists n, s, l; (split; [lia|exact X]).
Qed.
Lemma start_good : good cfao ->
  (forall n k' s' l' x i, steps (goes_within e frame (h_big m) cfa p) n (0, [], false) (k', s', l') -> znth (p_ins p) k' = Some (x, i) -> defined frame (h_big m) i s') ->
  good (start m fr cfao ops).
Proof using FIT CF CW SF. intros GC D. unfold start. pose proof (run_good (Z.to_nat 4096) 0 [] false (Forall_nil _) ltac:(cbn; lia) ltac:(pose proof (zlen_nonneg _ (p_ins p)); lia) GC D). destruct ops; [exact Logic.I|assumption]. Qed.
End EVAL.

Lemma within_words : forall m c32 e frame cfao cfa ops p w, fits m c32 e -> (forall c, cfao = Ok c <-> cfa c) -> (forall c, cfa c -> word c) -> stands_for ops p ->
  yields_within e frame (h_big m) cfa p w -> word w.
Proof.
  intros m c32 e frame cfao cfa ops p w FIT CF CW SF (n & s & l & _ & ST & v & r & -> & H).
  assert (GW : forall n c d, steps (goes_within e frame (h_big m) cfa p) n c d -> Forall word (snd (fst c)) -> 0 <= fst (fst c) <= zlen (p_ins p) -> Forall word (snd (fst d))).
  { clear - FIT CF CW SF. intros n c d ST. induction ST as [c|n [[k s] l] [[k' s'] l'] d G ST IH]; intros W K; [exact W|]. cbn [fst snd] in *.
    destruct (goes_words m c32 e frame cfao cfa ops p FIT CF CW SF _ _ _ _ _ _ W K G) as (W' & K' & _). apply IH; assumption. }
  specialize (GW _ _ _ ST (Forall_nil _) ltac:(cbn; pose proof (zlen_nonneg _ (p_ins p)); lia)). cbn in GW. inversion GW; subst.
  destruct l; [|subst; assumption]. eapply (reads_w m c32 e frame FIT); [|exact H]. pose proof (asize_cases _ _ _ FIT). destruct c32; lia.
Qed.
