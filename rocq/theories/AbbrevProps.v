(* C33: abbreviations accepted once are walked safely later.
   C50: an abbreviation code resolves to its declaration. *)
From Verif Require Import Base LebModel LebSpec LebProof DwModel Slice CfiSpec CfiModel CfiProof FormModel AbbrevModel AbbrevSpec AbbrevProof CfiSafe.
Require Import ZArith List Lia Bool ZifyBool. Import ListNotations. Open Scope Z_scope.

Lemma znth_firstn : forall (dm : bytes) e k, 0 <= e <= zlen dm -> k < e -> znth (firstn (Z.to_nat e) dm) k = znth dm k.
Proof.
  intros dm e k E K. unfold znth. assert (ZL : zlen (firstn (Z.to_nat e) dm) = e) by (unfold zlen in *; rewrite firstn_length; lia).
  rewrite ZL. destruct (0 <=? k) eqn:K0; [|reflexivity]. replace (k <? e) with true by lia. replace (k <? zlen dm) with true by lia. cbn [andb].
  rewrite <- (firstn_skipn (Z.to_nat e) dm) at 2. rewrite nth_error_app1; [reflexivity|]. unfold zlen in ZL. lia.
Qed.
Lemma cut_toks : forall (dm : bytes) a len, accepted dm a len -> bytes_ok dm -> 0 <= ab_offset a ->
  let cut := firstn (Z.to_nat (ab_offset a + len)) dm in
  exists l, (length l < length cut)%nat /\ (length cut <= length dm)%nat /\ toks cut (ab_attrp a) l (ab_offset a + len) /\ toks dm (ab_attrp a) l (ab_offset a + len).
Proof.
  intros dm a len H B P cut. destruct (accepted_parts dm a len H B P) as (l & A1 & A2 & A3 & T). pose proof (zlen_nonneg _ l).
  assert (ZL : zlen cut = ab_offset a + len) by (unfold cut, zlen in *; rewrite firstn_length; lia). exists l.
  split; [unfold zlen in *; lia|]. split; [unfold zlen in *; lia|]. split; [apply T|apply T; reflexivity].
  intros k K. apply znth_firstn; lia.
Qed.
Lemma fa_spec_safe : forall u name l rp, 
  (fa_spec u name l rp = UB -> exists f p, val_len u f p = UB) /\ (fa_spec u name l rp = Fuel -> exists f p, val_len u f p = Fuel) /\ (forall e, fa_spec u name l rp <> Err e).
Proof.
  intros u name. induction l as [|s l IH]; intros rp; cbn [fa_spec]; [split; [discriminate|]; split; discriminate|].
  destruct ((s_name s =? name) && negb (name =? INVALID)); [split; [discriminate|]; split; discriminate|]. destruct (s_form s =? 0); [apply IH|].
  destruct (val_len u (s_form s) rp) as [n|e| |] eqn:E; [apply IH|split; [discriminate|]; split; discriminate| |].
  - split; [intros _; exists (s_form s), rp; exact E|split; discriminate].
  - split; [discriminate|]. split; [intros _; exists (s_form s), rp; exact E|discriminate].
Qed.
Lemma ga_spec_safe : forall u dm cb base off l seen rp, 
  (ga_spec u dm cb base off seen l rp = UB -> exists f p, val_len u f p = UB) /\ (ga_spec u dm cb base off seen l rp = Fuel -> exists f p, val_len u f p = Fuel).
Proof.
  intros u dm cb base off. induction l as [|s l IH]; intros seen rp; cbn [ga_spec]; [split; discriminate|].
  destruct ((base + off <=? s_pos s) && negb (cb seen (attr_of dm s rp))); [split; discriminate|]. destruct (s_form s =? 0); [apply IH|].
  destruct (val_len u (s_form s) rp) as [n|e| |] eqn:E; [apply IH|split; discriminate| |].
  - split; [intros _; exists (s_form s), rp; exact E|discriminate].
  - split; [discriminate|]. intros _; exists (s_form s), rp; exact E.
Qed.

(* Let a declaration be accepted at its offset with a length.  Cut the section after that
   many bytes.  Every later walk over the attribute specifications behaves on the cut section
   as on the whole one and comes to its end there: it reads nothing behind the terminating
   pair.  Only computing the length of a value in the unit can fail. *)
Theorem C33_walks : forall (dm : bytes) off a len, bytes_ok dm -> 0 <= off -> offabbrev (Some dm) off = Ok (Got a len) -> ab_offset a = off ->
  let cut := firstn (Z.to_nat (off + len)) dm in
  (forall name, exists r, hasattr cut a name = Ok r /\ hasattr dm a name = Ok r) /\
  (forall idx, 0 <= idx -> getabbrevattr_data cut a idx = getabbrevattr_data dm a idx /\
      match getabbrevattr_data cut a idx with Ok _ | Err _ => True | UB | Fuel => False end) /\
  (forall u name rp, let r := fa_walk (S (length cut)) u cut name (ab_attrp a) rp in
      r = fa_walk (S (length dm)) u dm name (ab_attrp a) rp /\
      (r = UB -> exists f p, val_len u f p = UB) /\ (r = Fuel -> exists f p, val_len u f p = Fuel)) /\
  (forall u cb o rp, let r := ga_walk (S (length cut)) u cut cb (ab_attrp a) o [] (ab_attrp a) rp in
      (r = UB -> exists f p, val_len u f p = UB) /\ (r = Fuel -> exists f p, val_len u f p = Fuel)).
Proof.
  intros dm off a len B P H OFF cut. subst off. destruct (cut_toks dm a len H B P) as (l & L1 & L2 & T1 & T2). fold cut in L1, L2, T1.
  split; [|split; [|split]].
  - intros name. exists (existsb (fun s => s_name s =? name) l). unfold hasattr. split; eapply has_walk_toks; try eassumption; lia.
  - intros idx I. unfold getabbrevattr_data. rewrite (data_walk_toks _ _ _ _ T1), (data_walk_toks _ _ _ _ T2) by lia. split; [reflexivity|].
    destruct (znth l (idx - 0)) as [s|]; exact Logic.I.
  - intros u name rp. cbn zeta. rewrite (fa_walk_toks _ _ _ _ T1), (fa_walk_toks _ _ _ _ T2) by lia. split; [reflexivity|]. 
    destruct (fa_spec_safe u name l rp) as (S1 & S2 & _). split; assumption.
  - intros u cb o rp. cbn zeta. rewrite (ga_walk_toks _ _ _ _ T1) by lia. apply ga_spec_safe.
Qed.
Print Assumptions C33_walks.

(* The entries of a unit's hash table are accepted declarations, whatever was asked before. *)
Definition good (dm : bytes) (a : abbrev) : Prop := 0 <= ab_offset a /\ exists len, offabbrev (Some dm) (ab_offset a) = Ok (Got a len).
Definition good_hash (dm : bytes) (h : hash) : Prop := Forall (fun e => good dm (snd e)) h.
Lemma hfind_good : forall (dm : bytes) h k a, good_hash dm h -> hfind h k = Some a -> good dm a.
Proof.
  intros dm h k a H. induction H as [|[k' a'] h E H IH]; cbn; [discriminate|]. destruct (k' =? k); [|exact IH]. intros [= <-]. exact E.
Qed.
Lemma hset_good : forall (dm : bytes) h k a, good_hash dm h -> good dm a -> good_hash dm (hset h k a).
Proof.
  intros dm h k a H G. induction H as [|[k' a'] h E H IH]; cbn; [constructor|]. destruct (k' =? k); constructor; try assumption.
Qed.
Lemma hinsert_good : forall (dm : bytes) h k a, good_hash dm h -> good dm a -> good_hash dm (hinsert h k a).
Proof. intros dm h k a H G. unfold hinsert. destruct (hfind h k); [exact H|constructor; assumption]. Qed.
Lemma parse_offset : forall (dm : bytes) off c p a len, parse_rest dm off c p = Ok (a, len) -> ab_offset a = off /\ ab_code a = c mod 2 ^ 31.
Proof.
  intros dm off c p a len H. unfold parse_rest in H. destruct (zlen dm <=? p); [discriminate|]. destruct (get_uleb128 dm p (zlen dm)) as [[t p1]| | |]; try discriminate. cbn [obind] in H.
  destruct (zlen dm <=? p1 + 1); [discriminate|]. destruct (znth dm p1); [|discriminate]. destruct (check_attrs (S (length dm)) dm (p1 + 1)); try discriminate. cbn [obind] in H. injection H as <- <-. split; reflexivity.
Qed.
(* One shape for the body of __libdw_getabbrev *)
Lemma getabbrev_shape : forall (dm : bytes) h off w, 0 <= off < zlen dm -> 
  (exists x, znth dm off = Some x /\ x = 0 /\ getabbrev (Some dm) h off w = (Ok EndAbbrev, h)) \/
  (exists x, znth dm off = Some x /\ x <> 0 /\ getabbrev (Some dm) h off w =
     match get_uleb128 dm off (zlen dm) with
      | Ok (c, p) =>
        match (match h with None => None | Some h => hfind h (key (u32 c)) end) with
        | Some a =>
          if negb (ab_offset a =? off) then (Err DWARF_E_INVALID_DWARF, h)
          else if negb w then (Ok (Got a 0), h)
          else match parse_rest dm off (u32 c) p with
               | Ok (a', len) => (Ok (Got a' len), match h with None => None | Some h => Some (hset h (key (u32 c)) a') end)
               | Err e => (Err e, h) | UB => (UB, h) | Fuel => (Fuel, h)
               end
        | None =>
          match parse_rest dm off (u32 c) p with
          | Ok (a', len) => (Ok (Got a' len), match h with None => None | Some h => Some (hinsert h (key (ab_code a')) a') end)
          | Err e => (Err e, h) | UB => (UB, h) | Fuel => (Fuel, h)
          end
        end
      | Err e => (Err e, h) | UB => (UB, h) | Fuel => (Fuel, h)
      end).
Proof.
  intros dm h off w R. destruct (Base.znth_in _ _ _ R) as [x X]. unfold getabbrev. replace (zlen dm <=? off) with false by lia. rewrite X.
  destruct (Z.eq_dec x 0) as [-> |N]; [left; exists 0; auto|right]. exists x. split; [reflexivity|]. split; [exact N|]. destruct x; [congruence|reflexivity|reflexivity].
Qed.
Lemma parse_accepted : forall (dm : bytes) off x c p a len, 0 <= off < zlen dm -> znth dm off = Some x -> x <> 0 -> get_uleb128 dm off (zlen dm) = Ok (c, p) ->
  parse_rest dm off (u32 c) p = Ok (a, len) -> accepted dm a len /\ ab_offset a = off.
Proof.
  intros dm off x c p a len R X N G H. destruct (parse_offset _ _ _ _ _ _ H) as [OFF _]. split; [|exact OFF]. unfold accepted. rewrite OFF. unfold offabbrev.
  destruct (getabbrev_shape dm None off true R) as [(y & Y & -> & _)|(y & Y & NY & ->)]; [congruence|]. rewrite G, H. reflexivity.
Qed.
Lemma getabbrev_good : forall (dm : bytes) h off w r h', good_hash dm h -> 0 <= off -> getabbrev (Some dm) (Some h) off w = (r, h') ->
  good_hash dm (hash_of h' h) /\ (forall a len, r = Ok (Got a len) -> good dm a /\ ab_offset a = off).
Proof.
  intros dm h off w r h' GH P H. destruct (zlen dm <=? off) eqn:E; [unfold getabbrev in H; rewrite E in H; injection H as <- <-; split; [exact GH|discriminate]|].
  assert (R : 0 <= off < zlen dm) by lia. destruct (getabbrev_shape dm (Some h) off w R) as [(y & Y & -> & S)|(y & Y & NY & S)]; rewrite S in H; clear S.
  { injection H as <- <-. split; [exact GH|discriminate]. }
  destruct (get_uleb128 dm off (zlen dm)) as [[c p]|e| |] eqn:G; try (injection H as <- <-; split; [exact GH|discriminate]).
  assert (PG : forall a' len, parse_rest dm off (u32 c) p = Ok (a', len) -> good dm a' /\ ab_offset a' = off).
  { intros a' len PR. destruct (parse_accepted _ _ _ _ _ _ _ R Y NY G PR) as [AC OFF]. split; [|exact OFF]. split; [lia|]. exists len. exact AC. }
  destruct (hfind h (key (u32 c))) as [a|] eqn:F.
  - destruct (negb (ab_offset a =? off)) eqn:EO; [injection H as <- <-; split; [exact GH|discriminate]|].
    destruct (negb w); [injection H as <- <-; split; [exact GH|intros a' len [= <- <-]; split; [exact (hfind_good _ _ _ _ GH F)|lia]]|].
    destruct (parse_rest dm off (u32 c) p) as [[a' len]|e| |] eqn:PR; injection H as <- <-; try (split; [exact GH|discriminate]).
    destruct (PG a' len eq_refl) as [GA OA]. split; [apply hset_good; assumption|]. intros a2 len2 [= <- <-]. split; assumption.
  - destruct (parse_rest dm off (u32 c) p) as [[a' len]|e| |] eqn:PR; injection H as <- <-; try (split; [exact GH|discriminate]).
    destruct (PG a' len eq_refl) as [GA OA]. split; [apply hinsert_good; assumption|]. intros a2 len2 [= <- <-]. split; assumption.
Qed.
Lemma len_nonneg : forall (dm : bytes) a len, bytes_ok dm -> good dm a -> offabbrev (Some dm) (ab_offset a) = Ok (Got a len) -> 0 < len.
Proof.
  intros dm a len B [P _] H. destruct (accepted_parts dm a len H B P) as (l & A1 & A2 & _). pose proof (zlen_nonneg _ l). lia.
Qed.
Lemma getabbrev_len : forall (dm : bytes) h off r h' a len, bytes_ok dm -> good_hash dm h -> 0 <= off -> getabbrev (Some dm) (Some h) off true = (r, h') ->
  r = Ok (Got a len) -> accepted dm a len.
Proof.
  intros dm h off r h' a len B GH P H ->. destruct (zlen dm <=? off) eqn:E; [unfold getabbrev in H; rewrite E in H; discriminate|].
  assert (R : 0 <= off < zlen dm) by lia. destruct (getabbrev_shape dm (Some h) off true R) as [(y & Y & -> & S)|(y & Y & NY & S)]; rewrite S in H; clear S; [discriminate|].
  destruct (get_uleb128 dm off (zlen dm)) as [[c p]|e| |] eqn:G; try discriminate.
  destruct (hfind h (key (u32 c))) as [a2|] eqn:F.
  - destruct (negb (ab_offset a2 =? off)) eqn:EO; [discriminate|]. cbn [negb] in H. destruct (parse_rest dm off (u32 c) p) as [[a' len']|e| |] eqn:PR; try discriminate. injection H as -> -> _.
    exact (proj1 (parse_accepted _ _ _ _ _ _ _ R Y NY G PR)).
  - destruct (parse_rest dm off (u32 c) p) as [[a' len']|e| |] eqn:PR; try discriminate. injection H as -> -> _.
    exact (proj1 (parse_accepted _ _ _ _ _ _ _ R Y NY G PR)).
Qed.
Definition good_state (dm : bytes) (st : acache) : Prop := good_hash dm (c_hash st) /\ match c_last st with Some o => 0 <= o | None => True end.
Lemma find_loop_good : forall fuel dm st code r st', bytes_ok dm -> good_state dm st -> find_loop fuel (Some dm) st code = Ok (r, st') ->
  good_state dm st' /\ match r with Some a => good dm a | None => True end.
Proof.
  induction fuel as [|k IH]; intros dm st code r st' B [GH GL] H; cbn [find_loop] in H.
  { destruct (c_last st) eqn:CL; [discriminate|]. injection H as <- <-. split; [split; [exact GH|rewrite CL; exact Logic.I]|exact Logic.I]. }
  destruct (c_last st) as [off|] eqn:CL; [|injection H as <- <-; split; [split; [exact GH|rewrite CL; exact GL]|exact Logic.I]].
  destruct (getabbrev (Some dm) (Some (c_hash st)) off true) as [rr h'] eqn:GA.
  destruct (getabbrev_good _ _ _ _ _ _ GH GL GA) as [GH' GR].
  destruct rr as [[|a len]|e| |]; try discriminate.
  - injection H as <- <-. split; [split; [exact GH'|exact Logic.I]|exact Logic.I].
  - destruct (GR a len eq_refl) as [GA2 OFF]. pose proof (getabbrev_len _ _ _ _ _ _ _ B GH GL GA eq_refl) as AC.
    pose proof (len_nonneg dm a len B GA2 AC) as LN.
    assert (GS : good_state dm (Acache (hash_of h' (c_hash st)) (Some (off + len)))) by (split; [exact GH'|cbn; lia]).
    destruct (ab_code a =? code); [injection H as <- <-; split; assumption|exact (IH _ _ _ _ _ B GS H)].
  - injection H as <- <-. split; [split; [exact GH'|exact Logic.I]|exact Logic.I].
Qed.

(* What a program does with the abbreviations of one unit. *)
Inductive aop := Lookup (code : Z) | Get (off : Z) (want_length : bool).
Definition arun1 (dm : bytes) (base : Z) (st : acache) (o : aop) : outcome (option abbrev * acache) :=
  match o with
  | Lookup code => findabbrev (Some dm) st code
  | Get off w => match dwarf_getabbrev (Some dm) base st off w with
                 | (Ok (Got a _), st') => Ok (Some a, st')
                 | (Ok EndAbbrev, st') | (Err _, st') => Ok (None, st')
                 | (UB, _) => UB
                 | (Fuel, _) => Fuel
                 end
  end.
Inductive reaches (dm : bytes) (base : Z) : acache -> Prop :=
  | R_start : reaches dm base (Acache [] (Some base))
  | R_step : forall st o r st', reaches dm base st -> arun1 dm base st o = Ok (r, st') -> reaches dm base st'.
Lemma arun1_good : forall (dm : bytes) base st o r st', bytes_ok dm -> good_state dm st -> arun1 dm base st o = Ok (r, st') ->
  good_state dm st' /\ match r with Some a => good dm a | None => True end.
Proof.
  intros dm base st o r st' B GS H. destruct o as [code|off w]; cbn [arun1] in H.
  - unfold findabbrev in H. destruct (code =? 0); [injection H as <- <-; split; [exact GS|exact Logic.I]|].
    destruct (hfind (c_hash st) (key code)) as [a|] eqn:F; [injection H as <- <-; split; [exact GS|exact (hfind_good _ _ _ _ (proj1 GS) F)]|].
    exact (find_loop_good _ _ _ _ _ _ B GS H).
  - unfold dwarf_getabbrev in H. destruct (u64 (zlen dm - base) <=? off); [injection H as <- <-; split; [exact GS|exact Logic.I]|].
    destruct (getabbrev (Some dm) (Some (c_hash st)) (u64 (base + off)) w) as [rr h'] eqn:GA.
    destruct (getabbrev_good _ _ _ _ _ _ (proj1 GS) (proj1 (u64_bound _)) GA) as [GH' GR].
    assert (GS' : good_state dm (Acache (hash_of h' (c_hash st)) (c_last st))) by (split; [exact GH'|exact (proj2 GS)]).
    destruct rr as [[|a len]|e| |]; try discriminate; injection H as <- <-; (split; [exact GS'|]); try exact Logic.I. exact (proj1 (GR a len eq_refl)).
Qed.
Theorem C33_history : forall (dm : bytes) base st o a st', bytes_ok dm -> 0 <= base -> reaches dm base st -> arun1 dm base st o = Ok (Some a, st') ->
  0 <= ab_offset a /\ exists len, offabbrev (Some dm) (ab_offset a) = Ok (Got a len).
Proof.
  intros dm base st o a st' B P R H.
  assert (GS : good_state dm st). { clear H. induction R as [|st o' r st2 R IH H]; [split; [constructor|exact P]|]. exact (proj1 (arun1_good _ _ _ _ _ _ B IH H)). }
  exact (proj2 (arun1_good _ _ _ _ _ _ B GS H)).
Qed.
Print Assumptions C33_history.

(* The checked walk itself: nothing outside the section is read and it comes to an end. *)
Lemma check_attrs_safe : forall fuel dm p, bytes_ok dm -> 0 <= p -> (0 < fuel)%nat -> zlen dm - p < Z.of_nat fuel ->
  match check_attrs fuel dm p with Ok _ | Err _ => True | UB | Fuel => False end.
Proof.
  induction fuel as [|k IH]; intros dm p B P F0 F; cbn [check_attrs].
  - lia.
  - destruct (zlen dm <=? p) eqn:E0; [exact Logic.I|].
    destruct (get_uleb128_total dm p (zlen dm) B ltac:(lia) ltac:(lia)) as (n & p1 & -> & V1 & L1 & _). cbn [obind].
    destruct (zlen dm <=? p1) eqn:E1; [exact Logic.I|].
    destruct (get_uleb128_total dm p1 (zlen dm) B ltac:(lia) ltac:(lia)) as (f & p2 & -> & V2 & L2 & _). cbn [obind].
    destruct (u32 f =? FORM_implicit_const).
    + destruct (zlen dm <=? p2) eqn:E2; [exact Logic.I|]. destruct (get_sleb128_total dm p2 (zlen dm) B ltac:(lia) ltac:(lia)) as (d & p3 & -> & L3 & _). cbn [obind].
      destruct ((u32 n =? 0) && (u32 f =? 0)); [exact Logic.I|]. apply IH; [exact B|lia|lia|lia].
    + cbn [obind]. destruct ((u32 n =? 0) && (u32 f =? 0)); [exact Logic.I|]. apply IH; [exact B|lia|lia|lia].
Qed.
Theorem C33_decoding_safe : forall (dm : bytes) off, bytes_ok dm -> 0 <= off -> match offabbrev (Some dm) off with Ok _ | Err _ => True | UB | Fuel => False end.
Proof.
  intros dm off B P. unfold offabbrev. destruct (zlen dm <=? off) eqn:E; [unfold getabbrev; rewrite E; exact Logic.I|].
  assert (R : 0 <= off < zlen dm) by lia. destruct (getabbrev_shape dm None off true R) as [(y & Y & -> & S)|(y & Y & NY & S)]; rewrite S; clear S; [exact Logic.I|].
  destruct (get_uleb128_total dm off (zlen dm) B ltac:(lia) ltac:(lia)) as (c & p & -> & _ & L & _).
  unfold parse_rest. destruct (zlen dm <=? p) eqn:E1; [exact Logic.I|].
  destruct (get_uleb128_total dm p (zlen dm) B ltac:(lia) ltac:(lia)) as (t & p1 & -> & _ & L1 & _). cbn [obind].
  destruct (zlen dm <=? p1 + 1) eqn:E2; [exact Logic.I|]. assert (R1 : 0 <= p1 < zlen dm) by lia. destruct (Base.znth_in _ _ _ R1) as [x ->].
  pose proof (check_attrs_safe (S (length dm)) dm (p1 + 1) B ltac:(lia) ltac:(lia) ltac:(unfold zlen; lia)) as C. 
  destruct (check_attrs (S (length dm)) dm (p1 + 1)); cbn; try exact Logic.I; exact C.
Qed.
Print Assumptions C33_decoding_safe.

(* Counting the attributes. *)
Fixpoint lead (l : list aspec) : Z := match l with [] => 0 | s :: r => if (s_name s =? 0) || (s_form s =? 0) then 0 else 1 + lead r end.
Lemma lead_all : forall l, Forall (fun s => s_name s <> 0 /\ s_form s <> 0) l -> lead l = zlen l.
Proof. induction 1 as [|s l E H IH]; [reflexivity|]. cbn [lead]. rewrite zlen_cons, IH. replace ((s_name s =? 0) || (s_form s =? 0)) with false by lia. reflexivity. Qed.
Lemma cnt_walk_toks : forall (dm : bytes) p l e, toks dm p l e -> Forall (fun s => s_form s <> 33) l -> forall fuel cnt, (length l < fuel)%nat ->
  cnt_walk fuel dm cnt p = Ok (cnt + lead l).
Proof.
  intros dm p l e H. induction H as [p q T|p n f q l e T NZ NF L H IH|p n q d q' l e T D L L' H IH]; intros NI [|k] cnt F; cbn [length] in F; try lia; cbn [cnt_walk lead s_name s_form]; rewrite T; cbn [obind].
  - change ((0 =? 0) || (0 =? 0)) with true. cbn iota. f_equal. lia.
  - destruct ((n =? 0) || (f =? 0)) eqn:E.
    + f_equal. lia.
    + rewrite (IH (Forall_inv_tail NI) k (cnt + 1) ltac:(lia)). f_equal. lia.
  - apply Forall_inv in NI. cbn in NI. congruence.
Qed.
Lemma data_all : forall (dm : bytes) a l e (Q : Z -> Z -> Prop), toks dm (ab_attrp a) l e -> (length l < S (length dm))%nat ->
  (forall idx n f d o, 0 <= idx -> getabbrevattr_data dm a idx = Ok (n, f, d, o) -> Q n f) -> Forall (fun s => Q (s_name s) (s_form s)) l.
Proof.
  intros dm a l e Q T L H. apply Forall_forall. intros s I. apply In_nth_error in I as (i & I). 
  assert (I' : (i < length l)%nat) by (apply nth_error_Some; congruence).
  apply (H (Z.of_nat i) (s_name s) (s_form s) (s_data s) (s_pos s - ab_attrp a + ab_offset a) ltac:(lia)).
  unfold getabbrevattr_data. rewrite (data_walk_toks _ _ _ _ T) by lia. unfold znth, zlen. rewrite Z.sub_0_r, Nat2Z.id.
  replace ((0 <=? Z.of_nat i) && (Z.of_nat i <? Z.of_nat (length l))) with true by lia. rewrite I. reflexivity.
Qed.
(* Without DW_FORM_implicit_const the count is right and the walk stays inside.  (Zero names
   or forms, which no DWARF version defines, make it stop early.) *)
Theorem C33_count_partial : forall (dm : bytes) off a len, bytes_ok dm -> 0 <= off -> offabbrev (Some dm) off = Ok (Got a len) -> ab_offset a = off ->
  (forall idx n f d o, 0 <= idx -> getabbrevattr_data dm a idx = Ok (n, f, d, o) -> f <> FORM_implicit_const) ->
  let cut := firstn (Z.to_nat (off + len)) dm in
  exists c, getattrcnt cut a = Ok c /\ getattrcnt dm a = Ok c /\
    ((forall idx n f d o, 0 <= idx -> getabbrevattr_data dm a idx = Ok (n, f, d, o) -> n <> 0 /\ f <> 0) ->
     forall idx, 0 <= idx -> (exists r, getabbrevattr_data dm a idx = Ok r) <-> idx < c).
Proof.
  intros dm off a len B P H OFF NI cut. subst off. destruct (cut_toks dm a len H B P) as (l & L1 & L2 & T1 & T2). fold cut in L1, L2, T1.
  pose proof (data_all dm a l _ (fun n f => f <> 33) T2 ltac:(lia) NI) as NF.
  exists (lead l). unfold getattrcnt. rewrite (cnt_walk_toks _ _ _ _ T2 NF), (cnt_walk_toks _ _ _ _ T1 NF) by lia. split; [reflexivity|]. split; [reflexivity|]. intros NZ idx I.
  pose proof (lead_all _ (data_all dm a l _ (fun n f => n <> 0 /\ f <> 0) T2 ltac:(lia) NZ)) as CA.
  unfold getabbrevattr_data. rewrite (data_walk_toks _ _ _ _ T2) by lia. rewrite Z.sub_0_r. split.
  - intros [r R]. destruct (znth l idx) as [s|] eqn:Z0; [|discriminate]. apply SegProof.znth_in in Z0 as [_ Z0]. lia.
  - intros LT. assert (RG : 0 <= idx < zlen l) by lia. destruct (Base.znth_in _ _ _ RG) as [s ->]. eexists. reflexivity.
Qed.
Print Assumptions C33_count_partial.
(* With DW_FORM_implicit_const the constant is taken for the next name: the count can be
   wrong, and for a declaration accepted before, the walk can leave the section. *)
Theorem C33_count_refuted :
  (exists dm a len, bytes_ok dm /\ offabbrev (Some dm) 0 = Ok (Got a len) /\ getattrcnt dm a = Ok 3 /\
     (exists r, getabbrevattr_data dm a 1 = Ok r) /\ getabbrevattr_data dm a 2 = Err 0) /\
  (exists dm a len, bytes_ok dm /\ offabbrev (Some dm) 0 = Ok (Got a len) /\ len = zlen dm /\ getattrcnt dm a = UB).
Proof.
  split.
  - exists [1; 17; 0; 3; 33; 5; 3; 33; 5; 0; 0], (Abbrev 1 17 false 3 0), 11. split; [repeat (constructor; [unfold is_u8; lia|]); constructor|].
    split; [vm_compute; reflexivity|]. split; [vm_compute; reflexivity|]. split; [eexists; vm_compute; reflexivity|vm_compute; reflexivity].
  - exists [1; 17; 0; 1; 33; 128; 128; 128; 128; 128; 128; 128; 128; 128; 128; 128; 128; 128; 16; 0], (Abbrev 1 17 false 3 0), 20. split; [repeat (constructor; [unfold is_u8; lia|]); constructor|].
    split; [vm_compute; reflexivity|]. split; vm_compute; reflexivity.
Qed.
Print Assumptions C33_count_refuted.

(* A table of two declarations: code 1, tag 17 with children, attributes (3, 8), (59, 33 = -2);
   code 7, tag 52, attribute (3, 14). *)
Definition ex_table : bytes := [1; 17; 1; 3; 8; 59; 33; 126; 0; 0] ++ [7; 52; 0; 3; 14; 0; 0] ++ [0].
Example C33_nonvacuous : bytes_ok ex_table /\ offabbrev (Some ex_table) 0 = Ok (Got (Abbrev 1 17 true 3 0) 10) /\
  offabbrev (Some ex_table) 10 = Ok (Got (Abbrev 7 52 false 13 10) 7) /\ offabbrev (Some ex_table) 17 = Ok EndAbbrev /\
  hasattr ex_table (Abbrev 1 17 true 3 0) 59 = Ok true /\ hasattr ex_table (Abbrev 1 17 true 3 0) 60 = Ok false /\
  getattrcnt ex_table (Abbrev 7 52 false 13 10) = Ok 1 /\
  (exists st, reaches ex_table 0 st /\ length (c_hash st) = 2%nat /\ exists st', arun1 ex_table 0 st (Lookup 7) = Ok (Some (Abbrev 7 52 false 13 10), st')).
Proof.
  split; [repeat (constructor; [unfold is_u8; lia|]); constructor|]. do 6 (split; [vm_compute; reflexivity|]).
  eexists. split; [|split].
  - eapply (R_step _ _ (Acache [] (Some 0)) (Lookup 7)); [apply R_start|]. vm_compute. reflexivity.
  - reflexivity.
  - eexists. vm_compute. reflexivity.
Qed.

(* ------------------------------------------------------------------ *)
(* C50 *)
Lemma uleb_un : forall (dm : bytes) p v b, u32_leb v b -> at_ dm p b -> get_uleb128_unchecked dm p = Ok (v, p + zlen b) /\ u32 v = v.
Proof.
  intros dm p v b [U V] A. pose proof (at_bound _ _ _ A) as [P L]. pose proof (uleb_len _ _ U). pose proof (uleb_of_nonneg _ _ U). split; [|apply Z.mod_small; lia].
  destruct (uleb_vouched dm dm p (zlen dm) v (p + zlen b)) as [-> _]; [apply uleb_at; assumption|lia| |reflexivity|reflexivity].
  right. unfold UINT64_MAX. lia.
Qed.
Definition triple (s : aspec) : Z * Z * Z := (s_name s, s_form s, s_data s).
Definition striple (s : spec) : Z * Z * Z := (a_name s, a_fm s, match a_const s with Some v => v | None => 0 end).
Lemma attrs_toks : forall l b, attrs_bytes l b -> forall (dm : bytes) p, at_ dm p b ->
  (exists l', toks dm p l' (p + zlen b) /\ map triple l' = map striple l) /\
  (forall fuel, (length l < fuel)%nat -> check_attrs fuel dm p = Ok (p + zlen b)) /\ zlen l + 2 <= zlen b.
Proof.
  intros l b H. induction H as [x y X Y|n f l x y b X Y NZ NF H IH|n v l x y z b X Y Z0 H IH]; intros dm p A; rewrite ?zlen_app.
  - pose proof (uleb_len _ _ X) as LX. pose proof (uleb_len _ _ Y) as LY. pose proof (at_bound _ _ _ A) as [P AB]. rewrite zlen_app in AB.
    destruct (uleb_un dm p 0 x (conj X eq_refl) (at_app1 _ _ _ _ A)) as [U1 _]. destruct (uleb_un dm _ 0 y (conj Y eq_refl) (at_app2 _ _ _ _ A)) as [U2 _].
    split; [|split].
    + exists []. split; [|reflexivity]. apply T_end. unfold tok. rewrite U1. cbn [obind]. rewrite U2. cbn [obind]. rewrite Z.add_assoc. reflexivity.
    + intros [|k] F; [cbn in F; lia|]. cbn [check_attrs]. replace (zlen dm <=? p) with false by lia.
      rewrite (uleb_at _ _ (zlen dm) _ _ X (at_app1 _ _ _ _ A)) by lia. cbn [obind]. replace (zlen dm <=? p + zlen x) with false by lia.
      rewrite (uleb_at _ _ (zlen dm) _ _ Y (at_app2 _ _ _ _ A)) by lia. cbn [obind]. change (u32 0 =? FORM_implicit_const) with false. cbn [obind].
      change ((u32 0 =? 0) && (u32 0 =? 0)) with true. cbn iota. f_equal. lia.
    + change (zlen (@nil spec)) with 0. lia.
  - pose proof (uleb_len _ _ (proj1 X)) as LX. pose proof (uleb_len _ _ (proj1 Y)) as LY. pose proof (at_bound _ _ _ A) as [P AB]. rewrite !zlen_app in AB.
    pose proof (at_app1 _ _ _ _ A) as A1. pose proof (at_app2 _ _ _ _ A) as A2. pose proof (at_app1 _ _ _ _ A2) as A3. pose proof (at_app2 _ _ _ _ A2) as A4.
    destruct (uleb_un dm p n x X A1) as [U1 W1]. destruct (uleb_un dm _ f y Y A3) as [U2 W2]. destruct (IH dm _ A4) as ((l' & T & E) & C & LB). rewrite zlen_cons. pose proof (zlen_nonneg _ l) as LL.
    split; [|split; [|lia]].
    + exists (Aspec n f 0 p (p + zlen x + zlen y) :: l'). split; [|cbn [map]; rewrite E; reflexivity]. replace (p + (zlen x + (zlen y + zlen b))) with (p + zlen x + zlen y + zlen b) by lia.
      apply T_plain; try assumption; [|lia]. unfold tok. rewrite U1. cbn [obind]. rewrite U2. cbn [obind]. rewrite W1, W2. reflexivity.
    + intros [|k] F; [cbn in F; lia|]. cbn [length] in F. cbn [check_attrs]. replace (zlen dm <=? p) with false by lia.
      rewrite (uleb_at _ _ (zlen dm) _ _ (proj1 X) A1) by lia. cbn [obind]. replace (zlen dm <=? p + zlen x) with false by lia.
      rewrite (uleb_at _ _ (zlen dm) _ _ (proj1 Y) A3) by lia. cbn [obind]. rewrite W1, W2. unfold FORM_implicit_const. replace (f =? 33) with false by lia. cbn [obind].
      replace ((n =? 0) && (f =? 0)) with false by lia. rewrite C by lia. f_equal. lia.
  - pose proof (uleb_len _ _ (proj1 X)) as LX. pose proof (uleb_len _ _ (proj1 Y)) as LY. pose proof (sleb_len _ _ Z0) as LZ. pose proof (at_bound _ _ _ A) as [P AB]. rewrite !zlen_app in AB.
    pose proof (at_app1 _ _ _ _ A) as A1. pose proof (at_app2 _ _ _ _ A) as A2. pose proof (at_app1 _ _ _ _ A2) as A3. pose proof (at_app2 _ _ _ _ A2) as A4. pose proof (at_app1 _ _ _ _ A4) as A5. pose proof (at_app2 _ _ _ _ A4) as A6.
    destruct (uleb_un dm p n x X A1) as [U1 W1]. destruct (uleb_un dm _ 33 y Y A3) as [U2 W2]. destruct (IH dm _ A6) as ((l' & T & E) & C & LB). rewrite zlen_cons. pose proof (zlen_nonneg _ l) as LL.
    pose proof (sleb_at _ _ (zlen dm) _ _ Z0 A5 ltac:(lia)) as G3.
    split; [|split; [|lia]].
    + exists (Aspec n 33 v p (p + zlen x + zlen y) :: l'). split; [|cbn [map]; rewrite E; reflexivity]. replace (p + (zlen x + (zlen y + (zlen z + zlen b)))) with (p + zlen x + zlen y + zlen z + zlen b) by lia.
      apply (T_impl dm p n _ v (p + zlen x + zlen y + zlen z)); [| |lia|lia|exact T].
      * unfold tok. rewrite U1. cbn [obind]. rewrite U2. cbn [obind]. rewrite W1, W2. reflexivity.
      * apply (sleb_vouched dm dm _ (zlen dm)); [exact G3|lia|lia|reflexivity].
    + intros [|k] F; [cbn in F; lia|]. cbn [length] in F. cbn [check_attrs]. replace (zlen dm <=? p) with false by lia.
      rewrite (uleb_at _ _ (zlen dm) _ _ (proj1 X) A1) by lia. cbn [obind]. replace (zlen dm <=? p + zlen x) with false by lia.
      rewrite (uleb_at _ _ (zlen dm) _ _ (proj1 Y) A3) by lia. cbn [obind]. rewrite W1, W2. change (33 =? FORM_implicit_const) with true. cbn iota.
      replace (zlen dm <=? p + zlen x + zlen y) with false by lia. rewrite G3. cbn [obind].
      replace ((n =? 0) && (33 =? 0)) with false by lia. rewrite C by lia. f_equal. lia.
Qed.
(* A declaration in the section, its attribute specifications starting at [q]. *)
Lemma decl_parse : forall d b (dm : bytes) p, decl_bytes d b -> at_ dm p b ->
  exists x c q, znth dm p = Some x /\ x <> 0 /\ get_uleb128 dm p (zlen dm) = Ok (dl_code d, c) /\ 
    parse_rest dm p (dl_code d) c = Ok (Abbrev (dl_code d mod 2 ^ 31) (dl_tag d) (dl_children d) q p, zlen b) /\ u32 (dl_code d) = dl_code d /\ 0 <= p < zlen dm /\
    exists l', toks dm q l' (p + zlen b) /\ map triple l' = map striple (dl_attrs d) /\ (length l' < length dm)%nat.
Proof.
  intros d b dm p (c & t & ab & -> & C & CP & T & AB) A. pose proof (at_bound _ _ _ A) as [P BD]. rewrite !zlen_app, zlen_cons in BD.
  pose proof (uleb_len _ _ (proj1 C)) as LC. pose proof (uleb_len _ _ (proj1 T)) as LT.
  pose proof (at_app1 _ _ _ _ A) as A1. pose proof (at_app2 _ _ _ _ A) as A2. pose proof (at_app1 _ _ _ _ A2) as A3. pose proof (at_app2 _ _ _ _ A2) as A4.
  pose proof (at_shift _ _ _ _ A4) as A5. destruct (attrs_toks _ _ AB dm _ A5) as ((l' & TK & E) & CK & LB). pose proof (zlen_nonneg _ (dl_attrs d)) as LA.
  assert (FB : exists x r, c = x :: r /\ x <> 0).
  { destruct c as [|x r]; [cbn in LC; lia|]. exists x, r. split; [reflexivity|]. destruct C as [(CC & _ & CV & _) _]. destruct r as [|y r]; [cbn in CC, CV; lia|]. cbn in CC. lia. }
  destruct FB as (x & r & CE & NX).
  assert (W : u32 (dl_code d) = dl_code d) by (apply Z.mod_small; destruct C; lia).
  exists x, (p + zlen c), (p + zlen c + zlen t + 1). split.
  { rewrite CE in A1. pose proof (byte_at_at _ _ _ _ A1) as BA. unfold CfiModel.byte_at in BA. destruct (znth dm p); [injection BA as ->; reflexivity|discriminate]. }
  split; [exact NX|]. split; [apply uleb_at; [apply C|exact A1|lia]|]. split.
  { unfold parse_rest. replace (zlen dm <=? p + zlen c) with false by lia. rewrite (uleb_at _ _ (zlen dm) _ _ (proj1 T) A3) by lia. cbn [obind].
    replace (zlen dm <=? p + zlen c + zlen t + 1) with false by lia. pose proof (byte_at_at _ _ _ _ A4) as BA. unfold CfiModel.byte_at in BA.
    destruct (znth dm (p + zlen c + zlen t)) as [ch|]; [injection BA as ->|discriminate]. rewrite CK.
    - cbn [obind]. rewrite !zlen_app, zlen_cons. do 2 f_equal; [|lia]. f_equal; [apply Z.mod_small; pose proof (uleb_of_nonneg _ _ (proj1 T)); destruct T; lia|]. destruct (dl_children d); reflexivity.
    - unfold zlen in *. lia. }
  split; [exact W|]. split; [lia|]. exists l'. split; [|split; [exact E|]].
  - rewrite !zlen_app, zlen_cons. replace (p + (zlen c + (zlen t + (1 + zlen ab)))) with (p + zlen c + zlen t + 1 + zlen ab) by lia. exact TK.
  - apply (f_equal (@length _)) in E. rewrite !map_length in E. unfold zlen in *. lia.
Qed.

(* A declaration is decoded as it was written, with codes below 2^31. *)
Theorem C50_decode_partial : forall d b (dm : bytes) p, decl_bytes d b -> at_ dm p b -> dl_code d < 2 ^ 31 ->
  exists a, offabbrev (Some dm) p = Ok (Got a (zlen b)) /\ ab_code a = dl_code d /\ ab_tag a = dl_tag d /\ ab_children a = dl_children d /\ ab_offset a = p /\
    (forall name, hasattr dm a name = Ok (existsb (fun s => a_name s =? name) (dl_attrs d))) /\
    (forall idx, 0 <= idx -> match znth (dl_attrs d) idx with
       | Some s => exists o, getabbrevattr_data dm a idx = Ok (a_name s, a_fm s, match a_const s with Some v => v | None => 0 end, o)
       | None => getabbrevattr_data dm a idx = Err 0
       end).
Proof.
  intros d b dm p D A C31. destruct (decl_parse d b dm p D A) as (x & c & q & X & NX & G & PR & W & R & l' & T & E & L).
  assert (CP : 0 < dl_code d) by (destruct D as (? & ? & ? & _ & _ & CP & _); exact CP).
  rewrite (Z.mod_small (dl_code d)) in PR by lia. eexists. split.
  { unfold offabbrev. destruct (getabbrev_shape dm None p true R) as [(y & Y & -> & _)|(y & Y & NY & ->)]; [congruence|]. rewrite G, W, PR. reflexivity. }
  cbn [ab_code ab_tag ab_children ab_offset]. do 4 (split; [reflexivity|]). split.
  - intros name. unfold hasattr. cbn [ab_attrp]. rewrite (has_walk_toks _ _ _ _ T) by lia. f_equal. clear - E. revert E. generalize (dl_attrs d). induction l' as [|s l' IH]; intros [|t l] E; try discriminate; [reflexivity|].
    cbn [map] in E. injection E as E1 _ _ E2. cbn [existsb]. rewrite (IH l E2), E1. reflexivity.
  - intros idx I. unfold getabbrevattr_data. cbn [ab_attrp ab_offset]. rewrite (data_walk_toks _ _ _ _ T) by lia. rewrite Z.sub_0_r.
    assert (ZE : option_map triple (znth l' idx) = option_map striple (znth (dl_attrs d) idx)).
    { unfold znth. replace (zlen l') with (zlen (dl_attrs d)) by (unfold zlen; apply (f_equal (@length _)) in E; rewrite !map_length in E; lia).
      destruct ((0 <=? idx) && (idx <? zlen (dl_attrs d))); [|reflexivity]. rewrite <- !nth_error_map, E. reflexivity. }
    destruct (znth l' idx) as [s|], (znth (dl_attrs d) idx) as [s'|]; try discriminate ZE; [|reflexivity]. cbn in ZE. unfold triple, striple in ZE. injection ZE as -> -> ->. eexists. reflexivity.
Qed.
Print Assumptions C50_decode_partial.
(* Any bytes: an entry is said to have children exactly when the byte in front of its attribute
   specifications is DW_CHILDREN_yes (1). *)
Theorem C50_children : forall (dm : bytes) off a len, offabbrev (Some dm) off = Ok (Got a len) ->
  exists c, znth dm (ab_attrp a - 1) = Some c /\ (ab_children a = true <-> c = 1).
Proof.
  intros dm off a len H. unfold offabbrev, getabbrev in H. destruct (zlen dm <=? off); [discriminate|].
  destruct (znth dm off) as [x|]; [|discriminate].
  assert (G : fst (match get_uleb128 dm off (zlen dm) with
      | Ok (c, p) => match parse_rest dm off (u32 c) p with
          | Ok (a', len) => (Ok (Got a' len), None) | Err e => (Err e, None) | UB => (UB, None) | Fuel => (Fuel, @None hash) end
      | Err e => (Err e, None) | UB => (UB, None) | Fuel => (Fuel, None) end) = Ok (Got a len)) by (destruct x; [discriminate H|exact H|exact H]).
  clear H. destruct (get_uleb128 dm off (zlen dm)) as [[c p]| | |]; try discriminate. unfold parse_rest in G.
  destruct (zlen dm <=? p); [discriminate|]. destruct (get_uleb128 dm p (zlen dm)) as [[tag p1]| | |]; cbn [obind] in G; try discriminate.
  destruct (zlen dm <=? p1 + 1); [discriminate|]. destruct (znth dm p1) as [b|] eqn:B; [|discriminate].
  destruct (check_attrs (S (length dm)) dm (p1 + 1)) as [e| | |]; cbn [obind] in G; try discriminate. injection G as <- <-. cbn [ab_attrp ab_children].
  exists b. replace (p1 + 1 - 1) with p1 by lia. split; [exact B|]. apply Z.eqb_eq.
Qed.
Print Assumptions C50_children.
Example C50_children_nonvacuous : offabbrev (Some [1; 17; 2; 0; 0]) 0 = Ok (Got (Abbrev 1 17 false 3 0) 5) /\
  offabbrev (Some [1; 17; 1; 0; 0]) 0 = Ok (Got (Abbrev 1 17 true 3 0) 5).
Proof. split; vm_compute; reflexivity. Qed.
(* The member holding the code has 31 bits. *)
Theorem C50_code_refuted : exists d b a, decl_bytes d b /\ offabbrev (Some (b ++ [0])) 0 = Ok (Got a (zlen b)) /\ dl_code d = 2 ^ 31 + 5 /\ ab_code a = 5 /\
  (exists st, findabbrev (Some (b ++ [0])) (Acache [] (Some 0)) (dl_code d) = Ok (None, st)) /\
  (exists st, findabbrev (Some (b ++ [0])) (Acache [] (Some 0)) 5 = Ok (Some a, st)).
Proof.
  exists (Decl (2 ^ 31 + 5) 17 false []), [133; 128; 128; 128; 8; 17; 0; 0; 0], (Abbrev 5 17 false 7 0). split.
  { exists [133; 128; 128; 128; 8], [17], [0; 0]. split; [reflexivity|]. split; [split; [|reflexivity]; split; [cbn; lia|]; split; [vm_compute; discriminate|]; split; [reflexivity|vm_compute; reflexivity]|].
    split; [reflexivity|]. split; [split; [|reflexivity]; split; [cbn; lia|]; split; [vm_compute; discriminate|]; split; [reflexivity|vm_compute; reflexivity]|].
    apply (A_nil [0] [0]); (split; [cbn; lia|]; split; [vm_compute; discriminate|]; split; [reflexivity|vm_compute; reflexivity]). }
  split; [vm_compute; reflexivity|]. split; [reflexivity|]. split; [reflexivity|]. split; eexists; vm_compute; reflexivity.
Qed.
Print Assumptions C50_code_refuted.
(* The place reported for an attribute specification does not count the bytes of the code,
   the tag and the children flag: here the first one starts at 3, not at 0. *)
Theorem C50_offset_refuted : exists (dm : bytes) a len n f d o, offabbrev (Some dm) 0 = Ok (Got a len) /\ getabbrevattr_data dm a 0 = Ok (n, f, d, o) /\ o = 0 /\
  at_ dm 3 [n; f] /\ ~ at_ dm o [n; f].
Proof.
  exists ex_table, (Abbrev 1 17 true 3 0), 10, 3, 8, 0, 0. split; [vm_compute; reflexivity|]. split; [vm_compute; reflexivity|]. split; [reflexivity|]. split.
  - split; [lia|]. split; [vm_compute; discriminate|reflexivity].
  - intros (_ & _ & E). vm_compute in E. discriminate.
Qed.
Print Assumptions C50_offset_refuted.

(* Looking codes up.  The abbreviations of a unit are used by looking up codes and by reading
   declarations of the unit's table by their offsets in it. *)
Inductive uses (dm : bytes) (base : Z) (D : list (Z * decl)) : acache -> Prop :=
  | U_start : uses dm base D (Acache [] (Some base))
  | U_lookup : forall st code r st', uses dm base D st -> findabbrev (Some dm) st code = Ok (r, st') -> uses dm base D st'
  | U_get : forall st p d w r st', uses dm base D st -> In (p, d) D -> dwarf_getabbrev (Some dm) base st (p - base) w = (r, st') -> uses dm base D st'.

Definition isab (dm : bytes) (p : Z) (a : abbrev) : Prop := exists len, offabbrev (Some dm) p = Ok (Got a len).
Lemma hfind_hset : forall h k a k', hfind (hset h k a) k' = if k' =? k then match hfind h k with Some _ => Some a | None => None end else hfind h k'.
Proof.
  induction h as [|[k0 a0] h IH]; intros k a k'; cbn; [destruct (k' =? k); reflexivity|].
  destruct (k0 =? k) eqn:E; cbn; [destruct (k0 =? k') eqn:E2; [replace (k' =? k) with true by lia; reflexivity|replace (k' =? k) with false by lia; reflexivity]|].
  destruct (k0 =? k') eqn:E2; [replace (k' =? k) with false by lia; reflexivity|]. apply IH.
Qed.
Lemma table_inv : forall (dm : bytes) base D, table_at dm base D -> 0 <= base /\ base + zlen D < zlen dm /\ forall p d, In (p, d) D -> base <= p < zlen dm /\ exists b, decl_bytes d b /\ at_ dm p b.
Proof.
  intros dm base D H. induction H as [p A|p d b l DB A H IH].
  - destruct (at_bound _ _ _ A) as [P L]. change (zlen [0]) with 1 in L. change (zlen (@nil (Z * decl))) with 0. split; [lia|]. split; [lia|]. intros p' d [].
  - destruct IH as (I1 & I2 & I3). destruct (at_bound _ _ _ A) as [P L]. 
    assert (LB : 0 < zlen b). { destruct DB as (c & t & ab & -> & C & _). pose proof (uleb_len _ _ (proj1 C)). rewrite zlen_app. pose proof (zlen_nonneg _ (t ++ (if dl_children d then 1 else 0) :: ab)). lia. }
    pose proof (zlen_nonneg _ l). rewrite zlen_cons. split; [exact P|]. split; [lia|]. intros p' d' [[= <- <-]|I]; [split; [lia|]; exists b; split; assumption|]. destruct (I3 p' d' I) as [R X]. split; [lia|exact X].
Qed.
Section Table.
Variables (dm : bytes) (base : Z) (D : list (Z * decl)).
Hypothesis TAB : table_at dm base D.
Hypothesis UNIQ : NoDup (map (fun e => dl_code (snd e)) D).
Hypothesis C31 : Forall (fun e => dl_code (snd e) < 2 ^ 31) D.

Lemma uniq : forall p d p' d', In (p, d) D -> In (p', d') D -> dl_code d = dl_code d' -> p = p' /\ d = d'.
Proof.
  clear TAB C31. intros p d p' d' I I' E. induction D as [|e l IH]; [destruct I|]. cbn [map] in UNIQ. inversion UNIQ as [|x y NI ND]; subst.
  destruct I as [-> |I], I' as [E'|I'].
  - injection E' as <- <-. split; reflexivity.
  - destruct NI. cbn [snd]. rewrite E. exact (in_map (fun e => dl_code (snd e)) _ _ I').
  - subst e. destruct NI. cbn [snd]. rewrite <- E. exact (in_map (fun e => dl_code (snd e)) _ _ I).
  - apply IH; assumption.
Qed.
Definition hok (h : hash) : Prop := forall k a, hfind h k = Some a -> exists p d, In (p, d) D /\ dl_code d = k /\ isab dm p a.
Lemma isab_off : forall p d a, In (p, d) D -> isab dm p a -> ab_offset a = p /\ ab_code a = dl_code d.
Proof.
  intros p d a I [len H]. destruct (table_inv _ _ _ TAB) as (_ & _ & T). destruct (T p d I) as (_ & b & DB & A). 
  destruct (C50_decode_partial d b dm p DB A) as (a' & H' & E1 & _ & _ & E2 & _); [exact (proj1 (Forall_forall _ _) C31 _ I)|]. rewrite H in H'. injection H' as -> ->. split; assumption.
Qed.
Lemma getabbrev_ok : forall h p d w, hok h -> In (p, d) D ->
  exists a len h', getabbrev (Some dm) (Some h) p w = (Ok (Got a len), Some h') /\ isab dm p a /\ hok h' /\
    (forall k, hfind h' k = if k =? dl_code d then Some a else hfind h k) /\ (w = true -> offabbrev (Some dm) p = Ok (Got a len)).
Proof.
  intros h p d w HO I. destruct (table_inv _ _ _ TAB) as (_ & _ & T). destruct (T p d I) as (R0 & b & DB & A).
  assert (C0 : 0 < dl_code d < 2 ^ 31). { split; [destruct DB as (? & ? & ? & _ & _ & CP & _); exact CP|]. exact (proj1 (Forall_forall _ _) C31 _ I). }
  destruct (decl_parse d b dm p DB A) as (x & c & q & X & NX & G & PR & W & R & _). rewrite (Z.mod_small (dl_code d)) in PR by lia.
  set (a := Abbrev (dl_code d) (dl_tag d) (dl_children d) q p) in *.
  assert (OFFA : offabbrev (Some dm) p = Ok (Got a (zlen b))).
  { unfold offabbrev. destruct (getabbrev_shape dm None p true R) as [(y & Y & -> & _)|(y & Y & NY & ->)]; [congruence|]. rewrite G, W, PR. reflexivity. }
  assert (IA : isab dm p a) by (exists (zlen b); exact OFFA).
  assert (KEY : key (dl_code d) = dl_code d) by (unfold key; replace (dl_code d =? 0) with false by lia; reflexivity).
  destruct (getabbrev_shape dm (Some h) p w R) as [(y & Y & -> & _)|(y & Y & NY & ->)]; [congruence|]. rewrite G, W, KEY.
  destruct (hfind h (dl_code d)) as [a0|] eqn:F.
  - destruct (HO _ _ F) as (p' & d' & I' & E' & IA'). destruct (uniq _ _ _ _ I I' (eq_sym E')) as [<- <-].
    destruct (isab_off p d a0 I IA') as [O0 _]. rewrite O0, Z.eqb_refl. cbn [negb].
    assert (a0 = a) as ->. { destruct IA' as [l' H']. rewrite OFFA in H'. injection H' as <-. reflexivity. }
    destruct w; cbn [negb].
    + rewrite PR. exists a, (zlen b), (hset h (dl_code d) a). split; [reflexivity|]. split; [exact IA|].
      assert (HS : forall k, hfind (hset h (dl_code d) a) k = hfind h k). { intros k. rewrite hfind_hset, F. destruct (Z.eqb_spec k (dl_code d)) as [->|]; [symmetry; exact F|reflexivity]. }
      split; [intros k a1; rewrite HS; apply HO|]. split; [intros k; rewrite HS; destruct (Z.eqb_spec k (dl_code d)) as [->|]; [exact F|reflexivity]|intros _; exact OFFA].
    + exists a, 0, h. split; [reflexivity|]. split; [exact IA|]. split; [exact HO|]. split; [intros k; destruct (Z.eqb_spec k (dl_code d)) as [->|]; [exact F|reflexivity]|discriminate].
  - rewrite PR. cbn [ab_code a]. rewrite KEY. exists a, (zlen b), (hinsert h (dl_code d) a). split; [reflexivity|]. split; [exact IA|]. unfold hinsert. rewrite F.
    split; [|split; [|intros _; exact OFFA]].
    + intros k a1. cbn. destruct (Z.eqb_spec (dl_code d) k) as [<-|N]; [|apply HO]. intros [= <-]. exists p, d. split; [exact I|]. split; [reflexivity|exact IA].
    + intros k. cbn. rewrite (Z.eqb_sym k). reflexivity.
Qed.
Definition sok (st : acache) : Prop :=
  hok (c_hash st) /\ exists D1 D2, D = D1 ++ D2 /\ (forall p d, In (p, d) D1 -> hfind (c_hash st) (dl_code d) <> None) /\
    match c_last st with Some o => table_at dm o D2 | None => D2 = [] end.
Definition answers (code : Z) (r : option abbrev) : Prop :=
  (forall p d, In (p, d) D -> dl_code d = code -> exists a, r = Some a /\ isab dm p a) /\
  ((forall p d, In (p, d) D -> dl_code d <> code) -> r = None).
Lemma answers_in : forall p d code a, In (p, d) D -> dl_code d = code -> isab dm p a -> answers code (Some a).
Proof.
  intros p d code a I C A. split; [|intros N; destruct (N p d I C)]. intros p' d' I' C'. destruct (uniq _ _ _ _ I I' ltac:(congruence)) as [<- <-]. exists a. split; [reflexivity|exact A].
Qed.
Lemma find_loop_ok : forall D2 fuel st code D1, hok (c_hash st) -> D = D1 ++ D2 -> (forall p d, In (p, d) D1 -> hfind (c_hash st) (dl_code d) <> None) ->
  (exists o, c_last st = Some o /\ table_at dm o D2) -> hfind (c_hash st) code = None -> (length D2 < fuel)%nat ->
  exists r st', find_loop fuel (Some dm) st code = Ok (r, st') /\ sok st' /\ answers code r.
Proof.
  induction D2 as [|[p d] D2 IH]; intros fuel st code D1 HO DE H1 (o & LO & TB) NF FU; (destruct fuel as [|k]; [cbn in FU; lia|]); cbn [find_loop]; rewrite LO.
  - rewrite app_nil_r in DE. inversion TB as [p A|]; subst p. destruct (at_bound _ _ _ A) as [P L]. change (zlen [0]) with 1 in L.
    assert (GE : getabbrev (Some dm) (Some (c_hash st)) o true = (Ok EndAbbrev, Some (c_hash st))).
    { destruct (getabbrev_shape dm (Some (c_hash st)) o true ltac:(lia)) as [(y & Y & -> & ->)|(y & Y & NY & _)]; [reflexivity|].
      pose proof (byte_at_at _ _ _ _ A) as BA. unfold CfiModel.byte_at in BA. rewrite Y in BA. injection BA as ->. congruence. }
    rewrite GE. eexists _, _. split; [reflexivity|]. split.
    + split; [exact HO|]. exists D, []. split; [symmetry; apply app_nil_r|]. split; [rewrite DE; exact H1|reflexivity].
    + split; [|reflexivity]. intros p d I C. rewrite DE in I. destruct (H1 p d I). rewrite C. exact NF.
  - inversion TB as [|p' d' b l DB A TB']; subst p' d' p l.
    assert (I : In (o, d) D) by (rewrite DE; apply in_or_app; right; left; reflexivity).
    destruct (getabbrev_ok (c_hash st) o d true HO I) as (a & len & h' & -> & IA & HO' & HF & LEN). specialize (LEN eq_refl).
    destruct (isab_off o d a I IA) as [_ CA]. rewrite CA. cbn [hash_of].
    assert (LB : len = zlen b). { destruct (C50_decode_partial d b dm o DB A) as (a' & H' & _); [exact (proj1 (Forall_forall _ _) C31 _ I)|]. congruence. }
    assert (DE' : D = (D1 ++ [(o, d)]) ++ D2) by (rewrite <- app_assoc; exact DE).
    assert (H1' : forall p d', In (p, d') (D1 ++ [(o, d)]) -> hfind h' (dl_code d') <> None).
    { intros p d' II. rewrite HF. apply in_app_or in II as [II|[[= <- <-]|[]]]; [|rewrite Z.eqb_refl; discriminate]. destruct (dl_code d' =? dl_code d); [discriminate|exact (H1 p d' II)]. }
    destruct (dl_code d =? code) eqn:EC.
    + eexists _, _. split; [reflexivity|]. split.
      * split; [exact HO'|]. exists (D1 ++ [(o, d)]), D2. split; [exact DE'|]. split; [exact H1'|]. cbn [c_last]. rewrite LB. exact TB'.
      * apply (answers_in o d); [exact I|lia|exact IA].
    + apply (IH k _ code (D1 ++ [(o, d)])); cbn [c_hash c_last]; try assumption.
      * exists (o + len). split; [reflexivity|rewrite LB; exact TB'].
      * rewrite HF. replace (code =? dl_code d) with false by lia. exact NF.
      * cbn in FU. lia.
Qed.
Lemma findabbrev_ok : forall st code, sok st -> exists r st', findabbrev (Some dm) st code = Ok (r, st') /\ sok st' /\ answers code r.
Proof.
  intros st code SK. pose proof SK as (HO & D1 & D2 & DE & H1 & LA). unfold findabbrev. destruct (table_inv _ _ _ TAB) as (TP & TL & T).
  destruct (Z.eqb_spec code 0) as [->|NC].
  { exists None, st. split; [reflexivity|]. split; [exact SK|]. split; [|reflexivity]. intros p d I C. destruct (T p d I) as (_ & b & (c & t & ab & _ & _ & CP & _) & _). lia. }
  assert (KEY : key code = code) by (unfold key; replace (code =? 0) with false by lia; reflexivity). rewrite KEY.
  destruct (hfind (c_hash st) code) as [a|] eqn:F.
  { exists (Some a), st. split; [reflexivity|]. split; [exact SK|]. destruct (HO _ _ F) as (p & d & I & C & A). exact (answers_in p d code a I C A). }
  destruct (c_last st) as [o|] eqn:CL.
  - apply (find_loop_ok D2 _ st code D1); try assumption; [exists o; split; [exact CL|exact LA]|].
    apply (f_equal (@length _)) in DE. rewrite app_length in DE. unfold zlen in *. lia.
  - cbn [find_loop]. rewrite CL. exists None, st. split; [reflexivity|]. split; [exact SK|]. split; [|reflexivity]. intros p d I C. subst D2. rewrite app_nil_r in DE. rewrite DE in I. destruct (H1 p d I). rewrite C. exact F.
Qed.
Lemma uses_sok : zlen dm < two63 -> forall st, uses dm base D st -> sok st.
Proof.
  intros M st U. induction U as [|st code r st' U IH H|st p d w r st' U IH I H].
  - split; [intros k a F; discriminate|]. exists [], D. split; [reflexivity|]. split; [intros p d []|exact TAB].
  - destruct (findabbrev_ok st code IH) as (r2 & st2 & H2 & SK & _). rewrite H in H2. injection H2 as -> ->. exact SK.
  - destruct IH as (HO & D1 & D2 & DE & H1 & LA). unfold dwarf_getabbrev in H. destruct (table_inv _ _ _ TAB) as (TP & TL & T). destruct (T p d I) as (R & _).
    rewrite u64_small in H by lia. replace (zlen dm - base <=? p - base) with false in H by lia. replace (u64 (base + (p - base))) with p in H by (rewrite u64_small; lia).
    destruct (getabbrev_ok (c_hash st) p d w HO I) as (a & len & h' & E & IA & HO' & HF & _). rewrite E in H. injection H as <- <-. cbn [hash_of].
    split; [exact HO'|]. exists D1, D2. split; [exact DE|]. split; [|exact LA]. intros p' d' I'. cbn [c_hash]. rewrite HF. destruct (dl_code d' =? dl_code d); [discriminate|exact (H1 p' d' I')].
Qed.
End Table.

(* Whatever was looked up or read from the unit's table before, a code resolves to the
   declaration with that code in the unit's table, and to nothing if there is none.
   (Codes below 2^31; see C50_code_refuted.) *)
Theorem C50_lookup_partial : forall (dm : bytes) base D st code, table_at dm base D -> NoDup (map (fun e => dl_code (snd e)) D) ->
  Forall (fun e => dl_code (snd e) < 2 ^ 31) D -> zlen dm < two63 -> uses dm base D st ->
  exists r st', findabbrev (Some dm) st code = Ok (r, st') /\
    (forall p d, In (p, d) D -> dl_code d = code -> exists a len, r = Some a /\ offabbrev (Some dm) p = Ok (Got a len)) /\
    ((forall p d, In (p, d) D -> dl_code d <> code) -> r = None).
Proof.
  intros dm base D st code T U C M H. destruct (findabbrev_ok dm base D T U C st code (uses_sok dm base D T U C M st H)) as (r & st' & E & _ & A1 & A2).
  exists r, st'. split; [exact E|]. split; [|exact A2]. intros p d I DC. destruct (A1 p d I DC) as (a & RA & len & L). exists a, len. split; assumption.
Qed.
Print Assumptions C50_lookup_partial.

(* Reading a declaration of another unit's table through this unit changes what its codes
   mean: the table at 0 declares code 1 with tag 17, the one at 6 code 1 with tag 46. *)
Theorem C50_foreign_refuted : exists dm D st st', table_at dm 0 D /\ (exists r, arun1 dm 0 (Acache [] (Some 0)) (Get 6 true) = Ok (r, st)) /\
  findabbrev (Some dm) (Acache [] (Some 0)) 1 = Ok (Some (Abbrev 1 17 false 3 0), st') /\
  exists st2, findabbrev (Some dm) st 1 = Ok (Some (Abbrev 1 46 false 9 6), st2).
Proof.
  pose (dm := [1; 17; 0; 0; 0; 0; 1; 46; 0; 0; 0; 0]).
  exists dm, [(0, Decl 1 17 false [])]. eexists _, _. split.
  { assert (UL : forall v, 0 <= v < 128 -> u32_leb v [v]).
    { intros v V. split; [|lia]. split; [cbn; lia|]. split; [vm_compute; discriminate|]. split; [|lia]. cbn [uleb_value]. rewrite Z.mod_small by lia. lia. }
    apply (Tab_decl dm 0 _ [1; 17; 0; 0; 0]).
    - exists [1], [17], [0; 0]. split; [reflexivity|]. split; [apply UL; lia|]. split; [reflexivity|]. split; [apply UL; lia|]. apply (A_nil [0] [0]); apply UL; lia.
    - split; [lia|]. split; [vm_compute; discriminate|reflexivity].
    - apply Tab_end. split; [vm_compute; discriminate|]. split; [vm_compute; discriminate|reflexivity]. }
  split; [eexists; vm_compute; reflexivity|]. split; [vm_compute; reflexivity|]. eexists. vm_compute. reflexivity.
Qed.
Print Assumptions C50_foreign_refuted.

(* The example table meets the hypotheses of C50_lookup_partial and C50_decode_partial. *)
Example C50_nonvacuous : exists D, length D = 2%nat /\ table_at ex_table 0 D /\ NoDup (map (fun e => dl_code (snd e)) D) /\ Forall (fun e => dl_code (snd e) < 2 ^ 31) D /\
  exists st, uses ex_table 0 D st /\ c_hash st <> [].
Proof.
  assert (UL : forall v, 0 <= v < 128 -> u32_leb v [v]).
  { intros v V. split; [|lia]. split; [cbn; lia|]. split; [vm_compute; discriminate|]. split; [|lia]. cbn [uleb_value]. rewrite Z.mod_small by lia. lia. }
  pose (d1 := Decl 1 17 true [Spec 3 8 None; Spec 59 33 (Some (-2))]). pose (d2 := Decl 7 52 false [Spec 3 14 None]).
  exists [(0, d1); (10, d2)]. split; [reflexivity|].
  assert (NIL : attrs_bytes [] [0; 0]) by (apply (A_nil [0] [0]); apply UL; lia).
  assert (SL : sleb_of (-2) [126]) by (split; [cbn; lia|]; split; [vm_compute; discriminate|vm_compute; reflexivity]).
  split.
  { apply (Tab_decl ex_table 0 d1 [1; 17; 1; 3; 8; 59; 33; 126; 0; 0]).
    - exists [1], [17], [3; 8; 59; 33; 126; 0; 0]. split; [reflexivity|]. split; [apply UL; cbn; lia|]. split; [reflexivity|]. split; [apply UL; cbn; lia|].
      apply (A_plain 3 8 _ [3] [8]); [apply UL; lia|apply UL; lia|lia|lia|]. apply (A_const 59 (-2) [] [59] [33] [126]); [apply UL; lia|apply UL; lia|exact SL|exact NIL].
    - split; [lia|]. split; [vm_compute; discriminate|reflexivity].
    - apply (Tab_decl ex_table 10 d2 [7; 52; 0; 3; 14; 0; 0]).
      + exists [7], [52], [3; 14; 0; 0]. split; [reflexivity|]. split; [apply UL; cbn; lia|]. split; [reflexivity|]. split; [apply UL; cbn; lia|].
        apply (A_plain 3 14 _ [3] [14]); [apply UL; lia|apply UL; lia|lia|lia|exact NIL].
      + split; [lia|]. split; [vm_compute; discriminate|reflexivity].
      + apply Tab_end. split; [vm_compute; discriminate|]. split; [vm_compute; discriminate|reflexivity]. }
  split; [constructor; [cbn; intros [E|[]]; discriminate|constructor; [intros []|constructor]]|]. split; [repeat constructor|].
  eexists. split.
  - eapply (U_lookup _ _ _ (Acache [] (Some 0)) 7); [apply U_start|]. vm_compute. reflexivity.
  - discriminate.
Qed.
