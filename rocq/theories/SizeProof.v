(* Proofs about SizeModel. *)
From Verif Require Import Base ScopeModel SizeModel SizeSpec.
From Coq Require Import ZifyBool ZifyNat.

Section size.
Variable w : types.

Lemma link_eq : forall d, match t_attr w d AT_abstract_origin with Some l => Some l | None => t_attr w d AT_specification end = None <-> refers_not w d.
Proof using. intro d. unfold refers_not. destruct (t_attr w d AT_abstract_origin); split; try discriminate; try (intros (A & B); congruence); auto. Qed.
Lemma link_some : forall d l, match t_attr w d AT_abstract_origin with Some l => Some l | None => t_attr w d AT_specification end = Some l <-> refers w d l.
Proof using. intros d l. unfold refers. destruct (t_attr w d AT_abstract_origin); split; try (intros [= <-]; left; reflexivity); try (intros [H|(A & B)]; congruence). intro H; right; auto. Qed.

Lemma has_follow : forall a v n d, has w a v n d -> follow w (S n) d a = Some v.
Proof using.
  intros a v n d H. induction H as [n d H|n d l d' N R E H IH|n d s N R S H]; cbn [follow].
  - rewrite H. reflexivity.
  - rewrite N. apply link_some in R. rewrite R, E. exact IH.
  - rewrite N. apply link_eq in R. rewrite R. unfold skeleton_attr. rewrite S. exact H.
Qed.
Lemma lacks_follow : forall a n d, lacks w a n d -> follow w (S n) d a = None.
Proof using.
  intros a n d H. induction H as [n d N R S|n d l d' N R E H IH|n d l N R E]; cbn [follow]; rewrite N.
  - apply link_eq in R. rewrite R. unfold skeleton_attr. destruct (t_skel w d) as [s|]; [apply S; reflexivity|reflexivity].
  - apply link_some in R. rewrite R, E. exact IH.
  - apply link_some in R. rewrite R, E. reflexivity.
Qed.
Lemma follow_cases : forall a n d, (exists v, has w a v n d) \/ lacks w a n d \/ longer w a n d.
Proof using.
  intros a. induction n as [|n IH]; intro d.
  - destruct (t_attr w d a) as [v|] eqn:N; [left; exists v; constructor; exact N|].
    destruct (match t_attr w d AT_abstract_origin with Some l => Some l | None => t_attr w d AT_specification end) as [l|] eqn:L.
    + apply link_some in L. right. destruct (av_ref l) as [d'|] eqn:E; [right; eapply longer_now; eassumption|left; eapply lacks_broken; eassumption].
    + apply link_eq in L. destruct (t_skel w d) as [s|] eqn:S.
      * destruct (t_attr w s a) as [v|] eqn:V; [left; exists v; eapply has_skeleton; eassumption|]. right; left. apply lacks_own; [exact N|exact L|intros s' E; congruence].
      * right; left. apply lacks_own; [exact N|exact L|intros s' E; congruence].
  - destruct (t_attr w d a) as [v|] eqn:N; [left; exists v; constructor; exact N|].
    destruct (match t_attr w d AT_abstract_origin with Some l => Some l | None => t_attr w d AT_specification end) as [l|] eqn:L.
    + apply link_some in L. destruct (av_ref l) as [d'|] eqn:E; [|right; left; eapply lacks_broken; eassumption].
      destruct (IH d') as [(v & H)|[H|H]]; [left; exists v; eapply has_ref; eassumption|right; left; eapply lacks_ref; eassumption|right; right; eapply longer_ref; eassumption].
    + apply link_eq in L. destruct (t_skel w d) as [s|] eqn:S.
      * destruct (t_attr w s a) as [v|] eqn:V; [left; exists v; eapply has_skeleton; eassumption|]. right; left. apply lacks_own; [exact N|exact L|intros s' E; congruence].
      * right; left. apply lacks_own; [exact N|exact L|intros s' E; congruence].
Qed.
Lemma longer_follow : forall a n d, (forall d, t_skel w d = None) -> longer w a n d -> follow w (S n) d a = None.
Proof using.
  intros a n d NS H. induction H as [d l d' N R E|n d l d' N R E H IH]; cbn [follow]; rewrite N; apply link_some in R; rewrite R, E.
  - unfold skeleton_attr. rewrite NS. reflexivity.
  - exact IH.
Qed.
Lemma integrate_has : forall a v d, has w a v 16 d -> integrate w d a = Some v. Proof using. intros. apply has_follow. assumption. Qed.
Lemma integrate_lacks : forall a d, lacks w a 16 d -> integrate w d a = None. Proof using. intros. apply lacks_follow. assumption. Qed.

(* peeling *)
Lemma modifier_iff : forall t, is_modifier t = true <-> modifier t.
Proof using. intro t. unfold is_modifier, modifier. rewrite existsb_exists. split; [intros (x & I & E)|intro I; exists t; split; [exact I|lia]]. apply Z.eqb_eq in E. subst. exact I. Qed.
Lemma peels_loop : forall n d r, peels w n d r -> forall m, (n < m)%nat -> peel_loop w m d = PDone r.
Proof using.
  intros n d r H. induction H as [d M T|n d a d' r M A E H IH]; intros m L; (destruct m as [|m]; [lia|]); cbn [peel_loop].
  - assert (is_modifier (t_tag w d) = false) as -> by (destruct (is_modifier _) eqn:X; [apply modifier_iff in X; contradiction|reflexivity]). replace (t_tag w d =? 0) with false by lia. reflexivity.
  - apply modifier_iff in M. rewrite M, (integrate_has _ _ _ A), E. apply IH. lia.
Qed.
Lemma peel_loop_inv : (forall d a v, integrate w d a = Some v -> has w a v 16 d) -> forall m d r, peel_loop w m d = PDone r -> exists n, (n < m)%nat /\ peels w n d r.
Proof using.
  intros INV. induction m as [|m IH]; intros d r E; cbn [peel_loop] in E.
  - destruct (is_modifier _); [discriminate|]. rewrite orb_true_r in E. discriminate.
  - destruct (is_modifier (t_tag w d)) eqn:M.
    + destruct (integrate w d AT_type) as [a|] eqn:A; [|discriminate]. destruct (av_ref a) as [d'|] eqn:R; [|discriminate]. apply IH in E as (n & L & P). exists (S n). split; [lia|]. eapply peels_more; [apply modifier_iff; exact M|apply INV; exact A|exact R|exact P].
    + cbn [Nat.eqb] in E. rewrite orb_false_r in E. destruct (t_tag w d =? 0) eqn:T; [discriminate|]. injection E as <-. exists 0%nat. split; [lia|]. apply peels_done; [intro X; apply modifier_iff in X; congruence|lia].
Qed.
Lemma get_type_of : forall d t, type_of w d t -> get_type w d = Some t.
Proof using.
  intros d t (a & t0 & n & A & R & P & L). unfold get_type. rewrite (integrate_has _ _ _ A), R. unfold peel_type. rewrite (peels_loop _ _ _ P) by lia. reflexivity.
Qed.
Lemma get_type_inv : (forall d a v, integrate w d a = Some v -> has w a v 16 d) -> forall d t, get_type w d = Some t -> type_of w d t.
Proof using.
  intros INV d t E. unfold get_type in E. destruct (integrate w d AT_type) as [a|] eqn:A; [|discriminate]. destruct (av_ref a) as [t0|] eqn:R; [|discriminate]. unfold peel_type in E. destruct (peel_loop w 64 t0) eqn:P; try discriminate. injection E as ->.
  apply (peel_loop_inv INV) in P as (n & L & P). exists a, t0, n. split; [apply INV; exact A|]. split; [exact R|]. split; [exact P|lia].
Qed.

(* sizes *)
Lemma language_ok : forall lang l, lower_of_language lang l -> default_lower_bound (s32 lang) = Some l /\ s32 lang <> -1.
Proof using.
  intros lang l (B & ->). assert (s32 lang = lang) as -> by (unfold s32; lia). split; [|lia]. clear -B. assert (I : In lang (map Z.of_nat (seq 1 37))) by (apply in_map_iff; exists (Z.to_nat lang); split; [lia|apply in_seq; lia]).
  revert I. generalize lang. apply Forall_forall. vm_compute. repeat constructor.
Qed.
Lemma language_inv : forall lang l, 0 <= lang < two32 / 2 -> default_lower_bound (s32 lang) = Some l -> lower_of_language lang l.
Proof using.
  intros lang l B. assert (s32 lang = lang) as -> by (unfold s32; lia). unfold default_lower_bound, lower_of_language. intro H.
  assert (R : 1 <= lang <= 37).
  { destruct (existsb (Z.eqb lang) [2; 1; 12; 29; 4; 25; 26; 33; 16; 17; 11; 19; 20; 18; 21; 22; 24; 27; 28; 30; 32; 36; 37]) eqn:X; [|destruct (existsb (Z.eqb lang) [3; 13; 5; 6; 7; 8; 14; 34; 35; 9; 10; 23; 15; 31]) eqn:Y; [|discriminate]];
    [apply existsb_exists in X as (x & I & E)|apply existsb_exists in Y as (x & I & E)]; apply Z.eqb_eq in E; subst x; cbn in I; lia. }
  split; [exact R|]. destruct (language_ok lang _ (conj R eq_refl)) as (D & _). assert (E : s32 lang = lang) by (unfold s32; lia). rewrite E in D. unfold default_lower_bound in D. congruence.
Qed.

Definition ranged : Prop := (forall d a x v, t_attr w d a = Some x -> av_u x = Some v -> 0 <= v < two64) /\ forall d, 0 <= t_asize w d < two64.
Lemma has_range : ranged -> forall a v n d z, has w a v n d -> av_u v = Some z -> 0 <= z < two64.
Proof using. intros (R & _) a v n d z H E. induction H; [eapply R; eassumption|assumption|eapply R; eassumption]. Qed.
Lemma u64_small : forall z, 0 <= z < two64 -> u64 z = z. Proof using. intros. apply Z.mod_small. assumption. Qed.

Lemma dimension_ok : forall arr c n, dimension w false arr c n -> t_tag w c = TAG_subrange /\ subrange_count w arr c = Ok (Some n).
Proof using.
  intros arr c n H. destruct H as [a n T A E|a u l T N A E L [B|(F & _)]|m F]; try discriminate; (split; [exact T|]); unfold subrange_count.
  - rewrite (integrate_has _ _ _ A), E. reflexivity.
  - rewrite (integrate_lacks _ _ N), (integrate_has _ _ _ A), E. destruct L as [(b & L & LE)|(LN & b & lang & LA & LU & LL)].
    + rewrite (integrate_has _ _ _ L), LE. replace (u <? l) with false by lia. replace (u - l + 1 <? two64 / 2) with true by lia. reflexivity.
    + rewrite (integrate_lacks _ _ LN). unfold srclang. rewrite (integrate_has _ _ _ LA), LU. destruct (language_ok _ _ LL) as (D & NE). replace (s32 lang =? -1) with false by lia. rewrite D.
      replace (u <? l) with false by lia. replace (u - l + 1 <? two64 / 2) with true by lia. reflexivity.
Qed.
Lemma dims_ok : forall arr l i m, dimensions w false arr l i m -> forall c, siblings w c l -> exists k0, forall k any total, (k0 <= k)%nat -> dims w k arr c any total = Ok (if any || negb (Nat.eqb i 0) then Some (match i with O => total | _ => u64 (total * m) end) else None).
Proof using.
  intros arr l i m H. induction H as [|x l i n m D H IH|x l i m NS NE H IH]; intros c S; [inversion S|..].
  - destruct (dimension_ok _ _ _ D) as (T & C). assert (x = c) by (inversion S; reflexivity). subst x.
    assert (NX : exists k0, forall k total, (k0 <= k)%nat -> match t_sib w c with Got d => dims w k arr d true total | _ => Ok (Some total) end = Ok (Some (match i with O => total | _ => u64 (total * m) end)) /\ (i = 0%nat -> m = 1)).
    { inversion S as [? L|? d ? E S']; subst.
      - exists 0%nat. intros k total _. inversion H; subst. split; [|reflexivity]. destruct (t_sib w c); try reflexivity. exfalso. eapply L. reflexivity.
      - destruct (IH _ S') as (k0 & K). exists k0. intros k total L. rewrite E, (K k true total L). split; [reflexivity|]. clear -H. intros ->. remember 0%nat as z. induction H; [reflexivity|discriminate|auto]. }
    destruct NX as (k0 & NX). exists (Datatypes.S k0). intros k any total L. destruct k as [|k]; [lia|]. cbn [dims]. rewrite T. replace (TAG_subrange =? TAG_subrange) with true by reflexivity. cbn [orb]. rewrite C. cbn [obind]. rewrite orb_true_r.
    destruct (NX k (u64 (total * n)) ltac:(lia)) as (-> & M1). do 2 f_equal. destruct i; [rewrite M1 by reflexivity; f_equal; lia|]. unfold u64. rewrite Zmult_mod_idemp_l. f_equal. ring.
  - assert (x = c) by (inversion S; reflexivity). subst x.
    assert (NX : exists k0, forall k any total, (k0 <= k)%nat -> match t_sib w c with Got d => dims w k arr d any total | _ => Ok (if any : bool then Some total else None) end = Ok (if any || negb (Nat.eqb i 0) then Some (match i with O => total | _ => u64 (total * m) end) else None)).
    { inversion S as [? L|? d ? E S']; subst.
      - exists 0%nat. intros k any total _. inversion H; subst. cbn [Nat.eqb negb]. rewrite orb_false_r. destruct (t_sib w c); try reflexivity. exfalso. eapply L. reflexivity.
      - destruct (IH _ S') as (k0 & K). exists k0. intros k any total L. rewrite E. apply K. exact L. }
    destruct NX as (k0 & NX). exists (Datatypes.S k0). intros k any total L. destruct k as [|k]; [lia|]. cbn [dims]. replace (t_tag w c =? TAG_subrange) with false by lia. replace (t_tag w c =? TAG_enumeration) with false by lia. cbn [orb]. apply NX. lia.
Qed.
Lemma distance_ok : forall arr e s, distance w arr e s -> stride w arr e = Some s \/ (s = e /\ forall e', stride w arr e' = Some e').
Proof using.
  intros arr e s [a n A E|a n N A E|N1 N2]; unfold stride.
  - left. rewrite (integrate_has _ _ _ A). exact E.
  - left. rewrite (integrate_lacks _ _ N), (integrate_has _ _ _ A), E. replace (8 * n mod 8 =? 0) with true by lia. cbn [negb]. f_equal. lia.
  - right. split; [reflexivity|]. intro e'. rewrite (integrate_lacks _ _ N1), (integrate_lacks _ _ N2). reflexivity.
Qed.
Lemma distance_indep : forall arr e s e', distance w arr e s -> stride w arr e' = Some s \/ (s = e /\ stride w arr e' = Some e').
Proof using.
  intros arr e s e' [a n A E|a n N A E|N1 N2]; unfold stride.
  - left. rewrite (integrate_has _ _ _ A). exact E.
  - left. rewrite (integrate_lacks _ _ N), (integrate_has _ _ _ A), E. replace (8 * n mod 8 =? 0) with true by lia. cbn [negb]. f_equal. lia.
  - right. split; [reflexivity|]. rewrite (integrate_lacks _ _ N1), (integrate_lacks _ _ N2). reflexivity.
Qed.

Lemma size_ok : ranged -> forall n d v, size w false n d v -> exists k0, forall k m, (k0 <= k)%nat -> (n <= m)%nat -> aggregate_size w k m (Some d) = Ok (Some (u64 v)).
Proof using.
  intros RG n d v H. induction H as [n d a v A E|n d N T|n d t v N T TY H IH|n d t e l i m s N T TY H IH C D S].
  - exists 0%nat. intros k m _ L. destruct m as [|m]; [lia|]. cbn [aggregate_size]. rewrite (integrate_has _ _ _ A), E, u64_small by (eapply has_range; eassumption). reflexivity.
  - exists 0%nat. intros k m _ L. destruct m as [|m]; [lia|]. cbn [aggregate_size]. rewrite (integrate_lacks _ _ N). cbn in T. replace (t_tag w d =? TAG_subrange) with false by (unfold TAG_subrange; lia). replace (t_tag w d =? TAG_array) with false by (unfold TAG_array; lia).
    replace (existsb (Z.eqb (t_tag w d)) [15; 16; 66]) with true by (cbn; lia). rewrite u64_small by apply RG. reflexivity.
  - destruct IH as (k0 & K). exists k0. intros k m K0 L. destruct m as [|m]; [lia|]. cbn [aggregate_size]. rewrite (integrate_lacks _ _ N), T, (get_type_of _ _ TY). replace (TAG_subrange =? TAG_subrange) with true by reflexivity. apply K; lia.
  - destruct IH as (k1 & K1). destruct C as (c & C & SB). destruct (dims_ok _ _ _ _ D _ SB) as (k2 & K2). exists (max k1 k2). intros k m' K L. destruct m' as [|m']; [lia|]. cbn [aggregate_size].
    rewrite (integrate_lacks _ _ N), T, (get_type_of _ _ TY). replace (TAG_array =? TAG_subrange) with false by reflexivity. replace (TAG_array =? TAG_array) with true by reflexivity.
    rewrite K1 by lia. cbn [obind]. rewrite C, K2 by lia. cbn [obind orb negb Nat.eqb]. rewrite Z.mul_1_l.
    destruct (distance_indep _ _ _ (u64 e) S) as [ST|(-> & ST)]; rewrite ST; do 2 f_equal; unfold u64; [rewrite Zmult_mod_idemp_l; reflexivity|rewrite <- Zmult_mod; reflexivity].
Qed.

(* the other way *)
Definition plain : Prop :=
  (forall d, t_skel w d = None) /\ (forall d c l, t_tag w d = TAG_array -> children w d l -> In c l -> t_tag w c <> TAG_enumeration) /\
  (forall d x v, t_attr w d AT_language = Some x -> av_u x = Some v -> v < two32 / 2) /\ (forall d x v, t_attr w d AT_bit_stride = Some x -> av_u x = Some v -> 0 <= v).
Section back.
Hypothesis PL : plain.
Hypothesis RG : ranged.
Lemma integrate_inv : forall d a v, integrate w d a = Some v -> has w a v 16 d.
Proof using PL.
  intros d a v E. destruct (follow_cases a 16 d) as [(v' & H)|[H|H]].
  - pose proof (integrate_has _ _ _ H). congruence.
  - pose proof (integrate_lacks _ _ H). congruence.
  - pose proof (longer_follow a 16 d (proj1 PL) H). unfold integrate in E. congruence.
Qed.
(* no chain of references is longer than 16 *)
Hypothesis SHORT : forall d a, ~ longer w a 16 d.
Lemma lacks_inv : forall d a, integrate w d a = None -> lacks w a 16 d.
Proof using SHORT.
  intros d a E. destruct (follow_cases a 16 d) as [(v' & H)|[H|H]]; [pose proof (integrate_has _ _ _ H); congruence|exact H|exfalso; exact (SHORT _ _ H)].
Qed.
Lemma has_attr : forall (P : Z -> Prop) a v n d z, (forall d x v, t_attr w d a = Some x -> av_u x = Some v -> P v) -> has w a v n d -> av_u v = Some z -> P z.
Proof using. intros P a v n d z R H E. induction H; [eapply R; eassumption|assumption|eapply R; eassumption]. Qed.
Lemma count_inv : forall arr c n, t_tag w c = TAG_subrange -> subrange_count w arr c = Ok (Some n) -> dimension w false arr c n.
Proof using PL RG SHORT.
  intros arr c n T E. unfold subrange_count in E. destruct (integrate w c AT_count) as [a|] eqn:A.
  - injection E as E. eapply dim_count; [exact T|apply integrate_inv; exact A|exact E].
  - destruct (integrate w c AT_upper_bound) as [a|] eqn:U; [|discriminate]. destruct (av_s a) as [u|] eqn:US; [|discriminate].
    destruct (match integrate w c AT_lower_bound with Some b => av_s b | None => _ end) as [l|] eqn:L; [|discriminate]. destruct (u <? l) eqn:UL; [discriminate|]. destruct (u - l + 1 <? two64 / 2) eqn:B; [|discriminate]. injection E as <-.
    eapply dim_bounds; [exact T|apply lacks_inv; exact A|apply integrate_inv; exact U|exact US| |left; lia].
    destruct (integrate w c AT_lower_bound) as [b|] eqn:LB; [left; exists b; split; [apply integrate_inv; exact LB|exact L]|]. right. split; [apply lacks_inv; exact LB|].
    unfold srclang in L. destruct (integrate w (t_cu w arr) AT_language) as [b|] eqn:LG; [|discriminate]. apply integrate_inv in LG. destruct (av_u b) as [lang|] eqn:LU; [|discriminate]. destruct (s32 lang =? -1); [discriminate|].
    exists b, lang. split; [exact LG|]. split; [exact LU|]. apply language_inv; [|exact L]. split; [eapply has_range; eassumption|]. destruct PL as (_ & _ & P & _). exact (has_attr _ _ _ _ _ _ P LG LU).
Qed.
Lemma dims_inv : forall arr k c any total z, (forall l x, siblings w c l -> In x l -> t_tag w x <> TAG_enumeration) -> dims w k arr c any total = Ok (Some z) ->
  exists l i m, siblings w c l /\ dimensions w false arr l i m /\ (any = true \/ i <> 0%nat) /\ (i = 0%nat -> z = total) /\ (i <> 0%nat -> z = u64 (total * m)).
Proof using PL RG SHORT.
  intros arr. induction k as [|k IH]; intros c any total z NE E; [discriminate|]. cbn [dims] in E.
  assert (NX : forall any total, match t_sib w c with Got c => dims w k arr c any total | _ => Ok (if any : bool then Some total else None) end = Ok (Some z) ->
    exists l i m, (l = [] /\ (forall d, t_sib w c <> Got d) \/ exists d, t_sib w c = Got d /\ siblings w d l) /\ dimensions w false arr l i m /\ (any = true \/ i <> 0%nat) /\ (i = 0%nat -> z = total) /\ (i <> 0%nat -> z = u64 (total * m))).
  { intros any' total' E'. destruct (t_sib w c) as [d| |] eqn:S.
    - apply IH in E' as (l & i & m & SB & D & A & Z0 & ZN); [|intros l x SB I; apply (NE (c :: l)); [eapply sib_next; eassumption|right; exact I]]. exists l, i, m. split; [right; exists d; auto|auto].
    - destruct any'; [|discriminate]. injection E' as <-. exists [], 0%nat, 1. split; [left; split; [reflexivity|discriminate]|]. split; [constructor|]. split; [left; reflexivity|]. split; [reflexivity|contradiction].
    - destruct any'; [|discriminate]. injection E' as <-. exists [], 0%nat, 1. split; [left; split; [reflexivity|discriminate]|]. split; [constructor|]. split; [left; reflexivity|]. split; [reflexivity|contradiction]. }
  assert (SB : forall l, (l = [] /\ (forall d, t_sib w c <> Got d) \/ exists d, t_sib w c = Got d /\ siblings w d l) -> siblings w c (c :: l)).
  { intros l [(-> & H)|(d & H1 & H2)]; [apply sib_last; exact H|eapply sib_next; eassumption]. }
  destruct (t_tag w c =? TAG_subrange) eqn:T.
  - cbn [orb] in E. destruct (subrange_count w arr c) as [[n|]| | |] eqn:C; cbn [obind] in E; try discriminate. apply NX in E as (l & i & m & S & D & _ & Z0 & ZN).
    exists (c :: l), (Datatypes.S i), (n * m). split; [apply SB, S|]. split; [apply dims_dim; [apply count_inv; [lia|exact C]|exact D]|]. split; [right; discriminate|]. split; [discriminate|]. intros _.
    destruct i as [|i].
    + rewrite (Z0 eq_refl). assert (M1 : m = 1) by (clear -D; remember 0%nat as z; remember false as f; induction D; [reflexivity|discriminate|auto]). rewrite M1. f_equal. lia.
    + rewrite ZN by discriminate. unfold u64. rewrite Zmult_mod_idemp_l. f_equal. ring.
  - destruct (t_tag w c =? TAG_enumeration) eqn:T2.
    { exfalso. cbn [orb] in E. destruct (enumeration_count w arr) as [[n|]| | |]; cbn [obind] in E; try discriminate. apply NX in E as (l & i & m & S & _). apply (NE (c :: l) c (SB l S)); [left; reflexivity|lia]. }
    cbn [orb] in E. apply NX in E as (l & i & m & S & D & A & Z0 & ZN). exists (c :: l), i, m. split; [apply SB, S|]. split; [apply dims_other; [lia|lia|exact D]|]. auto.
Qed.
Lemma stride_inv : forall arr e s, stride w arr e = Some s -> (exists s', s = s' /\ forall e', distance w arr e' s') \/ (s = e /\ forall e', distance w arr e' e').
Proof using PL SHORT.
  intros arr e s E. unfold stride in E. destruct (integrate w arr AT_byte_stride) as [a|] eqn:A.
  - left. exists s. split; [reflexivity|]. intro e'. eapply dist_bytes; [apply integrate_inv; exact A|exact E].
  - destruct (integrate w arr AT_bit_stride) as [a|] eqn:B.
    + destruct (av_u a) as [n|] eqn:U; [|discriminate]. destruct (n mod 8 =? 0) eqn:M; [|discriminate]. cbn [negb] in E. injection E as <-. left. exists (n / 8). split; [reflexivity|]. intro e'. eapply dist_bits; [apply lacks_inv; exact A|apply integrate_inv; exact B|rewrite U; f_equal; lia].
    + injection E as <-. right. split; [reflexivity|]. intro e'. apply dist_size; apply lacks_inv; assumption.
Qed.
Lemma size_inv : forall k n d z, aggregate_size w k n (Some d) = Ok (Some z) -> exists v, size w false n d v /\ z = u64 v.
Proof using PL RG SHORT.
  intros k. induction n as [|n IH]; intros d z E; [discriminate|]. cbn [aggregate_size] in E. destruct (integrate w d AT_byte_size) as [a|] eqn:A.
  - injection E as E. exists z. split; [eapply size_given; [apply integrate_inv; exact A|exact E]|]. rewrite u64_small; [reflexivity|]. eapply has_range; [exact RG|apply integrate_inv; exact A|exact E].
  - apply lacks_inv in A. destruct (t_tag w d =? TAG_subrange) eqn:T1.
    { destruct (get_type w d) as [t|] eqn:G; [|destruct n; discriminate]. apply IH in E as (v & S & ->). exists v. split; [|reflexivity]. eapply size_subrange; [exact A|lia|apply (get_type_inv integrate_inv); exact G|exact S]. }
    destruct (t_tag w d =? TAG_array) eqn:T2.
    { destruct (get_type w d) as [t|] eqn:G; [|destruct n; discriminate]. destruct (aggregate_size w k n (Some t)) as [[e|]| | |] eqn:AG; cbn [obind] in E; try discriminate. apply IH in AG as (v & S & ->).
      destruct (t_kid w d) as [c| |] eqn:C; try discriminate. destruct (dims w k d c false 1) as [[cnt|]| | |] eqn:D; cbn [obind] in E; try discriminate. destruct (stride w d (u64 v)) as [s|] eqn:ST; [|discriminate]. injection E as <-.
      apply dims_inv in D as (l & i & m & SB & DM & [|NI] & _ & ZN); [discriminate| |intros l x SB I; destruct PL as (_ & P & _); apply (P d x l); [lia|exists c; auto|exact I]]. rewrite (ZN NI), Z.mul_1_l. destruct i as [|i]; [contradiction|].
      destruct (stride_inv _ _ _ ST) as [(s' & -> & DS)|(-> & DS)].
      - exists (m * s'). split; [eapply size_array; [exact A|lia|apply (get_type_inv integrate_inv); exact G|exact S|exists c; split; eassumption|exact DM|apply DS]|]. unfold u64. rewrite Zmult_mod_idemp_l. reflexivity.
      - exists (m * v). split; [eapply size_array; [exact A|lia|apply (get_type_inv integrate_inv); exact G|exact S|exists c; split; eassumption|exact DM|apply DS]|]. unfold u64. rewrite <- Zmult_mod. reflexivity. }
    destruct (existsb (Z.eqb (t_tag w d)) [15; 16; 66]) eqn:T3; [|discriminate]. injection E as <-. exists (t_asize w d). split; [|rewrite u64_small; [reflexivity|apply RG]]. apply size_pointer; [exact A|]. apply existsb_exists in T3 as (x & I & X). apply Z.eqb_eq in X. subst x. exact I.
Qed.
End back.

(* any entries *)
Lemma dims_defined : (forall d a x v, t_attr w d a = Some x -> av_s x = Some v -> - (two64 / 4) <= v < two64 / 4 - 1) -> forall arr c0, t_kid w arr = Got c0 -> forall k c any total, dims w k arr c any total <> UB.
Proof using.
  intros SM arr c0 K. induction k as [|k IH]; intros c any total; [discriminate|]. cbn [dims].
  assert (NX : forall any total, match t_sib w c with Got c => dims w k arr c any total | _ => Ok (if any : bool then Some total else None) end <> UB) by (intros; destruct (t_sib w c); [apply IH|discriminate|discriminate]).
  assert (FS : forall n d a x v, follow w n d a = Some x -> av_s x = Some v -> - (two64 / 4) <= v < two64 / 4 - 1).
  { induction n as [|n IHn]; intros d a x v E X; cbn [follow] in E.
    - unfold skeleton_attr in E. destruct (t_skel w d); [|discriminate]. eapply SM; eassumption.
    - destruct (t_attr w d a) eqn:A; [injection E as ->; eapply SM; eassumption|]. destruct (match t_attr w d AT_abstract_origin with Some l => Some l | None => _ end); [destruct (av_ref _); [eapply IHn; eassumption|discriminate]|]. unfold skeleton_attr in E. destruct (t_skel w d); [|discriminate]. eapply SM; eassumption. }
  assert (SC : subrange_count w arr c <> UB).
  { unfold subrange_count. destruct (integrate w c AT_count); [discriminate|]. destruct (integrate w c AT_upper_bound) as [a|] eqn:A; [|discriminate]. destruct (av_s a) as [u|] eqn:U; [|discriminate]. pose proof (FS _ _ _ _ _ A U).
    destruct (match integrate w c AT_lower_bound with Some b => av_s b | None => _ end) as [l|] eqn:L; [|discriminate].
    assert (- (two64 / 4) <= l < two64 / 4).
    { destruct (integrate w c AT_lower_bound) as [b|] eqn:B; [pose proof (FS _ _ _ _ _ B L); lia|]. destruct (srclang w (t_cu w arr) =? -1); [discriminate|]. unfold default_lower_bound in L. destruct (existsb _ _); [injection L as <-; lia|]. destruct (existsb _ _); [injection L as <-; lia|discriminate]. }
    destruct (u <? l); [discriminate|]. replace (u - l + 1 <? two64 / 2) with true by lia. discriminate. }
  assert (EC : enumeration_count w arr <> UB) by (unfold enumeration_count; rewrite K; discriminate).
  destruct ((t_tag w c =? TAG_subrange) || (t_tag w c =? TAG_enumeration)); [|apply NX].
  destruct (if t_tag w c =? TAG_subrange then subrange_count w arr c else enumeration_count w arr) as [[n|]| | |] eqn:E; cbn [obind]; try discriminate; [apply NX|]. destruct (t_tag w c =? TAG_subrange); contradiction.
Qed.
Lemma aggregate_defined : (forall d a x v, t_attr w d a = Some x -> av_s x = Some v -> - (two64 / 4) <= v < two64 / 4 - 1) -> forall k n d, aggregate_size w k n d <> UB.
Proof using.
  intros SM k. induction n as [|n IH]; intros [d|]; try discriminate. cbn [aggregate_size]. destruct (integrate w d AT_byte_size); [discriminate|]. destruct (_ =? TAG_subrange); [apply IH|]. destruct (_ =? TAG_array).
  - specialize (IH (get_type w d)). destruct (aggregate_size w k n (get_type w d)) as [[e|]| | |]; cbn [obind]; try discriminate; [|contradiction]. destruct (t_kid w d) as [c| |] eqn:K; try discriminate.
    pose proof (dims_defined SM d c K k c false 1). destruct (dims w k d c false 1) as [[cnt|]| | |]; cbn [obind]; try discriminate; [|contradiction]. destruct (stride w d e); discriminate.
  - destruct (existsb _ _); discriminate.
Qed.
Lemma dims_end : forall n, (forall d c, t_sib w d = Got c -> d < c < n) -> forall arr k c any total, n - c < Z.of_nat k -> 0 < Z.of_nat k -> dims w k arr c any total <> Fuel.
Proof using.
  intros n FW arr. induction k as [|k IH]; intros c any total M P; [lia|]. cbn [dims].
  assert (NX : forall any total, match t_sib w c with Got c => dims w k arr c any total | _ => Ok (if any : bool then Some total else None) end <> Fuel).
  { intros. destruct (t_sib w c) as [d| |] eqn:S; try discriminate. pose proof (FW _ _ S). apply IH; lia. }
  destruct ((t_tag w c =? TAG_subrange) || (t_tag w c =? TAG_enumeration)); [|apply NX].
  assert (E : (if t_tag w c =? TAG_subrange then subrange_count w arr c else enumeration_count w arr) <> Fuel).
  { destruct (_ =? _); [unfold subrange_count|unfold enumeration_count; destruct (t_kid w arr); discriminate]. destruct (integrate w c AT_count); [discriminate|]. destruct (integrate w c AT_upper_bound); [|discriminate]. destruct (av_s _); [|discriminate]. destruct (match integrate w c AT_lower_bound with Some b => av_s b | None => _ end); [|discriminate]. destruct (_ <? _); [discriminate|]. destruct (_ <? _); discriminate. }
  destruct (if t_tag w c =? TAG_subrange then subrange_count w arr c else enumeration_count w arr) as [[m|]| | |]; cbn [obind]; try discriminate; [apply NX|contradiction].
Qed.
Lemma aggregate_ends : forall lo n, (forall d c, t_sib w d = Got c -> d < c < n) -> (forall d c, t_kid w d = Got c -> lo <= c) -> forall k m d, n - lo < Z.of_nat k -> 0 < Z.of_nat k -> aggregate_size w k m d <> Fuel.
Proof using.
  intros lo n FW LO k m d M P. revert d. induction m as [|m IH]; intros [d|]; try discriminate. cbn [aggregate_size]. destruct (integrate w d AT_byte_size); [discriminate|]. destruct (_ =? TAG_subrange); [apply IH|]. destruct (_ =? TAG_array).
  - specialize (IH (get_type w d)). destruct (aggregate_size w k m (get_type w d)) as [[e|]| | |]; cbn [obind]; try discriminate; [|contradiction]. destruct (t_kid w d) as [c| |] eqn:K; try discriminate.
    pose proof (LO _ _ K). pose proof (dims_end n FW d k c false 1 ltac:(lia) P). destruct (dims w k d c false 1) as [[cnt|]| | |]; cbn [obind]; try discriminate; [|contradiction]. destruct (stride w d e); discriminate.
  - destruct (existsb _ _); discriminate.
Qed.
End size.
