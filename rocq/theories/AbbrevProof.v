(* Lemmas about abbreviation declarations: what a declaration accepted once looks like to
   later walks. *)
From Verif Require Import Base LebModel LebSpec LebProof DwModel FormModel AbbrevModel CfiProof CfiSafe SegProof.
Require Import ZArith List Lia Bool ZifyBool. Import ListNotations. Open Scope Z_scope.

(* The part of an unchecked LEB128 read that a checked one vouches for. *)
Lemma uleb_loop_sub : forall n N dm dm2 acc p i v q, uleb_loop dm n acc p i = Ok (v, q) -> (n <= N)%nat ->
  (n = N \/ q < p + Z.of_nat n \/ v <> UINT64_MAX) -> (forall k, k < q -> znth dm2 k = znth dm k) ->
  uleb_loop dm2 N acc p i = Ok (v, q) /\ p <= q /\ (n <> O -> p < q).
Proof.
  induction n as [|n IH]; intros N dm dm2 acc p i v q H L C A.
  - cbn in H. injection H as <- <-. destruct C as [<-|[C|C]]; [|lia|destruct (C eq_refl)]. cbn. split; [reflexivity|]. split; [lia|congruence].
  - destruct N as [|N]; [lia|]. cbn [uleb_loop] in H |- *.
    assert (ST : forall r p', uleb_step dm acc p i = Ok (r, p') -> p < q -> uleb_step dm2 acc p i = Ok (r, p') /\ p' = p + 1).
    { intros r p'. unfold uleb_step. intros E LT. rewrite A by lia. split; [exact E|]. destruct (znth dm p); [|discriminate]. destruct (Z.land z 128 =? 0); injection E as _ <-; reflexivity. }
    destruct (uleb_step dm acc p i) as [[r p']| | |] eqn:E; try discriminate H. cbn [obind] in H.
    destruct r as [x|x].
    + injection H as -> ->. assert (P' : q = p + 1). { unfold uleb_step in E. destruct (znth dm p); [|discriminate]. destruct (Z.land z 128 =? 0); injection E as _ <-; reflexivity. }
      destruct (ST (inl v) q eq_refl ltac:(lia)) as [-> _]. cbn [obind]. split; [reflexivity|]. split; lia.
    + assert (P' : p' = p + 1). { unfold uleb_step in E. destruct (znth dm p); [|discriminate]. destruct (Z.land z 128 =? 0); injection E as _ <-; reflexivity. }
      subst p'. destruct (IH N dm dm2 x (p + 1) (i + 1) v q H) as (E2 & LE & _); [lia| |exact A|].
      { destruct C as [C|[C|C]]; [left; lia|right; left; lia|right; right; exact C]. }
      destruct (ST _ _ eq_refl ltac:(lia)) as [-> _]. cbn [obind]. split; [exact E2|]. split; lia.
Qed.
Lemma sleb_loop_sub : forall n N dm dm2 acc p i v q, sleb_loop dm n acc p i = Ok (v, q) -> (n <= N)%nat ->
  (n = N \/ q < p + Z.of_nat n) -> (forall k, k < q -> znth dm2 k = znth dm k) ->
  sleb_loop dm2 N acc p i = Ok (v, q) /\ p <= q /\ (n <> O -> p < q).
Proof.
  induction n as [|n IH]; intros N dm dm2 acc p i v q H L C A.
  - cbn in H. injection H as <- <-. destruct C as [<-|C]; [|lia]. cbn. split; [reflexivity|]. split; [lia|congruence].
  - destruct N as [|N]; [lia|]. cbn [sleb_loop] in H |- *.
    assert (ST : forall r p', sleb_step dm acc p i = Ok (r, p') -> p < q -> sleb_step dm2 acc p i = Ok (r, p') /\ p' = p + 1).
    { intros r p'. unfold sleb_step. intros E LT. rewrite A by lia. split; [exact E|]. destruct (znth dm p); [|discriminate]. destruct (Z.land z 128 =? 0); injection E as _ <-; reflexivity. }
    destruct (sleb_step dm acc p i) as [[r p']| | |] eqn:E; try discriminate H. cbn [obind] in H.
    destruct r as [x|x].
    + injection H as -> ->. assert (P' : q = p + 1). { unfold sleb_step in E. destruct (znth dm p); [|discriminate]. destruct (Z.land z 128 =? 0); injection E as _ <-; reflexivity. }
      destruct (ST (inl v) q eq_refl ltac:(lia)) as [-> _]. cbn [obind]. split; [reflexivity|]. split; lia.
    + assert (P' : p' = p + 1). { unfold sleb_step in E. destruct (znth dm p); [|discriminate]. destruct (Z.land z 128 =? 0); injection E as _ <-; reflexivity. }
      subst p'. destruct (IH N dm dm2 x (p + 1) (i + 1) v q H) as (E2 & LE & _); [lia| |exact A|].
      { destruct C as [C|C]; [left; lia|right; lia]. }
      destruct (ST _ _ eq_refl ltac:(lia)) as [-> _]. cbn [obind]. split; [exact E2|]. split; lia.
Qed.
Lemma get_sleb_as_loop' : forall mem pos e, pos < e -> get_sleb128 mem pos e = sleb_loop mem (Z.to_nat (Z.min 9 (e - pos))) 0 pos 0.
Proof.
  intros mem pos e H; unfold get_sleb128.
  replace (Z.to_nat (Z.min 9 (e - pos))) with (S (Z.to_nat (Z.min 9 (e - pos) - 1))) by lia.
  cbn [sleb_loop]. destruct (sleb_step mem 0 pos 0) as [[r p]|ee| |] eqn:E; try reflexivity. cbn [obind].
  assert (P : p = pos + 1). { unfold sleb_step in E. destruct (znth mem pos); [|discriminate]. destruct (Z.land z 128 =? 0); injection E as _ <-; reflexivity. }
  destruct r; [reflexivity|]. rewrite max_len_sleb_eq by lia. rewrite P. replace (pos + 1 - 1) with pos by lia. reflexivity.
Qed.
Lemma get_sleb_unchecked_as_loop' : forall mem pos, get_sleb128_unchecked mem pos = sleb_loop mem 9 0 pos 0.
Proof.
  intros mem pos; unfold get_sleb128_unchecked. cbn [sleb_loop]. destruct (sleb_step mem 0 pos 0) as [[r p]|ee| |]; reflexivity.
Qed.
Lemma uleb_vouched : forall (dm : bytes) dm2 p e v q, get_uleb128 dm p e = Ok (v, q) -> p < e ->
  (q < e \/ v <> UINT64_MAX) -> (forall k, k < q -> znth dm2 k = znth dm k) ->
  get_uleb128_unchecked dm2 p = Ok (v, q) /\ p < q.
Proof.
  intros dm dm2 p e v q H L C A. rewrite get_uleb_as_loop in H by exact L. rewrite get_uleb_unchecked_as_loop.
  destruct (uleb_loop_sub _ 10 dm dm2 0 p 0 v q H) as (E & _ & LT); [lia| |exact A|].
  { destruct C as [C|C]; [|right; right; exact C]. destruct (Z.leb_spec 10 (e - p)); [left; lia|right; left; lia]. }
  split; [exact E|]. apply LT. lia.
Qed.
Lemma sleb_vouched : forall (dm : bytes) dm2 p e v q, get_sleb128 dm p e = Ok (v, q) -> p < e -> q < e ->
  (forall k, k < q -> znth dm2 k = znth dm k) -> get_sleb128_unchecked dm2 p = Ok (v, q) /\ p < q.
Proof.
  intros dm dm2 p e v q H L C A. rewrite get_sleb_as_loop' in H by exact L. rewrite get_sleb_unchecked_as_loop'.
  destruct (sleb_loop_sub _ 9 dm dm2 0 p 0 v q H) as (E & _ & LT); [lia| |exact A|].
  { destruct (Z.leb_spec 9 (e - p)); [left; lia|right; lia]. }
  split; [exact E|]. apply LT. lia.
Qed.
Lemma u32_max : u32 UINT64_MAX <> 0. Proof. vm_compute. discriminate. Qed.

(* The specifications an unchecked walk finds between p and e. *)
Record aspec := Aspec { s_name : Z; s_form : Z; s_data : Z; s_pos : Z; s_val : Z }.
Inductive toks (dm : bytes) : Z -> list aspec -> Z -> Prop :=
  | T_end : forall p q, tok dm p = Ok (0, 0, q) -> toks dm p [] q
  | T_plain : forall p n f q l e, tok dm p = Ok (n, f, q) -> ~ (n = 0 /\ f = 0) -> f <> 33 -> p + 1 < q -> toks dm q l e ->
      toks dm p (Aspec n f 0 p q :: l) e
  | T_impl : forall p n q d q' l e, tok dm p = Ok (n, 33, q) -> get_sleb128_unchecked dm q = Ok (d, q') -> p + 1 < q -> q < q' -> toks dm q' l e ->
      toks dm p (Aspec n 33 d p q :: l) e.

Lemma check_toks : forall fuel dm p e, check_attrs fuel dm p = Ok e -> 0 <= p -> bytes_ok dm ->
  exists l, 2 * zlen l + 2 <= e - p /\ e <= zlen dm /\
    forall dm2, (forall k, k < e -> znth dm2 k = znth dm k) -> toks dm2 p l e.
Proof.
  induction fuel as [|k IH]; intros dm p e H P B; [discriminate|]. cbn [check_attrs] in H.
  destruct (zlen dm <=? p) eqn:E0; [discriminate|].
  destruct (get_uleb128_total dm p (zlen dm) B ltac:(lia) ltac:(lia)) as (n & p1 & G1 & V1 & L1 & _). rewrite G1 in H. cbn [obind] in H.
  destruct (zlen dm <=? p1) eqn:E1; [discriminate|].
  destruct (get_uleb128_total dm p1 (zlen dm) B ltac:(lia) ltac:(lia)) as (f & p2 & G2 & V2 & L2 & _). rewrite G2 in H. cbn [obind] in H.
  assert (TOK : (p2 < zlen dm \/ f <> UINT64_MAX) -> forall dm2, (forall k, k < p2 -> znth dm2 k = znth dm k) -> tok dm2 p = Ok (u32 n, u32 f, p2)).
  { intros C dm2 A. unfold tok. destruct (uleb_vouched dm dm2 p (zlen dm) n p1 G1 ltac:(lia) ltac:(left; lia)) as [-> _]; [intros j J; apply A; lia|].
    cbn [obind]. destruct (uleb_vouched dm dm2 p1 (zlen dm) f p2 G2 ltac:(lia) C A) as [-> _]. reflexivity. }
  destruct (u32 f =? FORM_implicit_const) eqn:EF.
  - destruct (zlen dm <=? p2) eqn:E2; [discriminate|].
    destruct (get_sleb128_total dm p2 (zlen dm) B ltac:(lia) ltac:(lia)) as (d & p3 & G3 & L3 & _). rewrite G3 in H. cbn [obind] in H.
    unfold FORM_implicit_const in EF. replace ((u32 n =? 0) && (u32 f =? 0)) with false in H by lia.
    assert (NE : p3 < zlen dm). { destruct k; [discriminate|]. cbn [check_attrs] in H. destruct (zlen dm <=? p3) eqn:E3; [discriminate|lia]. }
    destruct (IH dm p3 e H ltac:(lia) B) as (l & LL & LE & T). exists (Aspec (u32 n) 33 d p p2 :: l). rewrite zlen_cons. pose proof (zlen_nonneg _ l). split; [lia|]. split; [lia|].
    intros dm2 A. destruct (sleb_vouched dm dm2 p2 (zlen dm) d p3 G3 ltac:(lia) NE) as [GU _]; [intros j J; apply A; lia|].
    eapply T_impl; [|exact GU|lia|lia|exact (T dm2 A)]. rewrite (TOK ltac:(left; lia) dm2) by (intros j J; apply A; lia). do 3 f_equal. lia.
  - cbn [obind] in H. destruct ((u32 n =? 0) && (u32 f =? 0)) eqn:EZ.
    + injection H as ->. exists []. change (zlen (@nil aspec)) with 0. split; [lia|]. split; [lia|]. intros dm2 A. apply T_end. rewrite (TOK ltac:(right; intros ->; pose proof u32_max; lia) dm2 A). do 3 f_equal; lia.
    + assert (NE : p2 < zlen dm). { destruct k; [discriminate|]. cbn [check_attrs] in H. destruct (zlen dm <=? p2) eqn:E3; [discriminate|lia]. }
      destruct (IH dm p2 e H ltac:(lia) B) as (l & LL & LE & T). exists (Aspec (u32 n) (u32 f) 0 p p2 :: l). rewrite zlen_cons. pose proof (zlen_nonneg _ l). split; [lia|]. split; [lia|].
      intros dm2 A. unfold FORM_implicit_const in EF. eapply T_plain; [|lia|lia|lia|exact (T dm2 A)]. apply TOK; [left; lia|]. intros j J. apply A. lia.
Qed.

(* What each walk computes. *)
Lemma has_walk_toks : forall (dm : bytes) p l e, toks dm p l e -> forall fuel name, (length l < fuel)%nat ->
  has_walk fuel dm name p = Ok (existsb (fun s => s_name s =? name) l).
Proof.
  intros dm p l e H. induction H as [p q T|p n f q l e T NZ NF L H IH|p n q d q' l e T D L L' H IH]; intros [|k] name F; cbn [length] in F; try lia; cbn [has_walk]; rewrite T; cbn [obind].
  - reflexivity.
  - replace ((n =? 0) && (f =? 0)) with false by lia. cbn [existsb s_name]. destruct (n =? name) eqn:E; [reflexivity|]. unfold FORM_implicit_const. replace (f =? 33) with false by lia. apply IH. lia.
  - replace ((n =? 0) && (33 =? 0)) with false by lia. cbn [existsb s_name]. destruct (n =? name) eqn:E; [reflexivity|]. cbn [Z.eqb Pos.eqb FORM_implicit_const]. change (33 =? FORM_implicit_const) with true. cbn iota. rewrite D. cbn [obind]. apply IH. lia.
Qed.
Lemma data_walk_toks : forall (dm : bytes) p l e, toks dm p l e -> forall fuel cnt idx, (length l < fuel)%nat -> 0 <= cnt <= idx ->
  data_walk fuel dm cnt idx p = match znth l (idx - cnt) with Some s => Ok (s_name s, s_form s, s_data s, s_pos s) | None => Err 0 end.
Proof.
  intros dm p l e H. induction H as [p q T|p n f q l e T NZ NF L H IH|p n q d q' l e T D L L' H IH]; intros [|k] cnt idx F C; cbn [length] in F; try lia; cbn [data_walk]; rewrite T; cbn [obind].
  - change (0 =? FORM_implicit_const) with false. cbn [obind andb Z.eqb]. rewrite znth_out; [reflexivity|]. change (zlen (@nil aspec)) with 0. lia.
  - unfold FORM_implicit_const. replace (f =? 33) with false by lia. cbn [obind]. replace ((n =? 0) && (f =? 0)) with false by lia. rewrite znth_cons.
    destruct (cnt <? idx) eqn:E.
    + replace (idx - cnt =? 0) with false by lia. rewrite IH by lia. replace (idx - (cnt + 1)) with (idx - cnt - 1) by lia. reflexivity.
    + replace (idx - cnt =? 0) with true by lia. reflexivity.
  - change (33 =? FORM_implicit_const) with true. cbn iota. rewrite D. cbn [obind]. replace ((n =? 0) && (33 =? 0)) with false by lia. rewrite znth_cons.
    destruct (cnt <? idx) eqn:E.
    + replace (idx - cnt =? 0) with false by lia. rewrite IH by lia. replace (idx - (cnt + 1)) with (idx - cnt - 1) by lia. reflexivity.
    + replace (idx - cnt =? 0) with true by lia. reflexivity.
Qed.
(* Attribute search, in terms of the list. *)
Fixpoint fa_spec (u : cu) (name : Z) (l : list aspec) (rp : Z) : outcome fattr :=
  match l with
  | [] => Ok (AtEnd rp)
  | s :: r =>
    if (s_name s =? name) && negb (name =? INVALID) then Ok (if s_form s =? 33 then InAbbrev (s_name s) 33 (s_val s) else InDie (s_name s) (s_form s) rp)
    else if s_form s =? 0 then fa_spec u name r rp
    else match val_len u (s_form s) rp with Ok len => fa_spec u name r (rp + len) | Err _ => Ok Bad | UB => UB | Fuel => Fuel end
  end.
Lemma fa_walk_toks : forall (dm : bytes) p l e, toks dm p l e -> forall fuel u name rp, (length l < fuel)%nat ->
  fa_walk fuel u dm name p rp = fa_spec u name l rp.
Proof.
  intros dm p l e H. induction H as [p q T|p n f q l e T NZ NF L H IH|p n q d q' l e T D L L' H IH]; intros [|k] u name rp F; cbn [length] in F; try lia; cbn [fa_walk fa_spec s_name s_form s_val]; rewrite T; cbn [obind].
  - reflexivity.
  - replace ((n =? 0) && (f =? 0)) with false by lia. unfold FORM_implicit_const. replace (f =? 33) with false by lia.
    destruct ((n =? name) && negb (name =? INVALID)); [reflexivity|]. destruct (f =? 0); [apply IH; lia|]. destruct (val_len u f rp); try reflexivity. apply IH. lia.
  - replace ((n =? 0) && (33 =? 0)) with false by lia. change (33 =? FORM_implicit_const) with true. change (33 =? 33) with true. change (33 =? 0) with false. cbn iota.
    destruct ((n =? name) && negb (name =? INVALID)); [reflexivity|]. destruct (val_len u 33 rp); try reflexivity. rewrite D. cbn [obind]. apply IH. lia.
Qed.
(* Attribute iteration, in terms of the list. *)
Definition attr_of (dm : bytes) (s : aspec) (rp : Z) : attr :=
  Attr (s_name s) (s_form s) (if s_form s =? 33 then s_val s else rp) (if s_form s =? 33 then dm else []).
Fixpoint ga_spec (u : cu) (dm : bytes) (cb : list attr -> attr -> bool) (base off : Z) (seen : list attr) (l : list aspec) (rp : Z) : outcome (list attr * gresult) :=
  match l with
  | [] => Ok (seen, Done)
  | s :: r =>
    let a := attr_of dm s rp in
    let visit := base + off <=? s_pos s in
    let seen' := if visit then seen ++ [a] else seen in
    if visit && negb (cb seen a) then Ok (seen', Resume (s_pos s - base))
    else if s_form s =? 0 then ga_spec u dm cb base off seen' r rp
    else match val_len u (s_form s) rp with Ok len => ga_spec u dm cb base off seen' r (rp + len) | Err _ => Ok (seen', Wrong) | UB => UB | Fuel => Fuel end
  end.
Lemma ga_walk_toks : forall (dm : bytes) p l e, toks dm p l e -> forall fuel u cb base off seen rp, (length l < fuel)%nat ->
  ga_walk fuel u dm cb base off seen p rp = ga_spec u dm cb base off seen l rp.
Proof.
  intros dm p l e H. induction H as [p q T|p n f q l e T NZ NF L H IH|p n q d q' l e T D L L' H IH]; intros [|k] u cb base off seen rp F; cbn [length] in F; try lia; cbn [ga_walk ga_spec attr_of s_name s_form s_val s_pos]; rewrite T; cbn [obind].
  - reflexivity.
  - replace ((n =? 0) && (f =? 0)) with false by lia. unfold attr_of, FORM_implicit_const. cbn [s_name s_form s_val]. replace (f =? 33) with false by lia.
    destruct ((base + off <=? p) && negb (cb seen (Attr n f rp []))); [reflexivity|]. destruct (f =? 0); [apply IH; lia|]. destruct (val_len u f rp); try reflexivity. apply IH. lia.
  - replace ((n =? 0) && (33 =? 0)) with false by lia. unfold attr_of. cbn [s_name s_form s_val]. change (33 =? FORM_implicit_const) with true. change (33 =? 33) with true. change (33 =? 0) with false. cbn iota.
    destruct ((base + off <=? p) && negb (cb seen (Attr n 33 q dm))); [reflexivity|]. destruct (val_len u 33 rp); try reflexivity. rewrite D. cbn [obind]. apply IH. lia.
Qed.

(* A declaration accepted at its offset. *)
Definition accepted (dm : bytes) (a : abbrev) (len : Z) : Prop := offabbrev (Some dm) (ab_offset a) = Ok (Got a len).

Lemma accepted_parts : forall (dm : bytes) a len, accepted dm a len -> bytes_ok dm -> 0 <= ab_offset a ->
  exists l, ab_offset a + 3 <= ab_attrp a /\ 2 * zlen l + 2 <= ab_offset a + len - ab_attrp a /\ ab_offset a + len <= zlen dm /\
    forall dm2, (forall k, k < ab_offset a + len -> znth dm2 k = znth dm k) -> toks dm2 (ab_attrp a) l (ab_offset a + len).
Proof.
  intros dm a len H B P. unfold accepted, offabbrev, getabbrev in H. destruct (zlen dm <=? ab_offset a) eqn:E; [discriminate|].
  assert (RG : 0 <= ab_offset a < zlen dm) by lia. destruct (Base.znth_in _ _ _ RG) as [x X]. rewrite X in H. destruct (Z.eq_dec x 0) as [-> |NX]; [discriminate|].
  assert (H' : fst (match get_uleb128 dm (ab_offset a) (zlen dm) with
      | Ok (c, p) => match parse_rest dm (ab_offset a) (u32 c) p with Ok (a', len) => (Ok (Got a' len), None : option hash) | Err e => (Err e, None) | UB => (UB, None) | Fuel => (Fuel, None) end
      | Err e => (Err e, None) | UB => (UB, None) | Fuel => (Fuel, None) end) = Ok (Got a len)) by (destruct x; [congruence|exact H|exact H]).
  clear H. destruct (get_uleb128_total dm (ab_offset a) (zlen dm) B ltac:(lia) ltac:(lia)) as (c & p & G & _ & L & _). rewrite G in H'.
  unfold parse_rest in H'. destruct (zlen dm <=? p) eqn:E1; [discriminate|].
  destruct (get_uleb128_total dm p (zlen dm) B ltac:(lia) ltac:(lia)) as (t & p1 & G1 & _ & L1 & _). rewrite G1 in H'. cbn [obind] in H'.
  destruct (zlen dm <=? p1 + 1) eqn:E2; [discriminate|]. destruct (znth dm p1) as [ch|]; [|discriminate].
  destruct (check_attrs (S (length dm)) dm (p1 + 1)) as [e| | |] eqn:CH; try discriminate. cbn [obind fst] in H'. remember (ab_offset a) as off eqn:OFF. injection H' as AE LE.
  destruct (check_toks _ _ _ _ CH ltac:(lia) B) as (l & LL & LZ & T). exists l. rewrite <- AE. cbn [ab_attrp]. split; [lia|].
  replace (off + len) with e by lia. split; [lia|]. split; [exact LZ|exact T].
Qed.
