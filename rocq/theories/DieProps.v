(* C51: moving between entries follows the tree.
   C52: the attributes of an entry are found with their values. *)
From Verif Require Import Base LebModel LebSpec LebProof DwModel Slice CfiSpec CfiModel CfiProof FormModel FormSpec FormProps AbbrevModel AbbrevSpec AbbrevProof AbbrevProps DieSpec CfiSafe ReadProps.
Require Import ZArith List Lia Bool ZifyBool. Import ListNotations. Open Scope Z_scope.

(* A unit with its abbreviation table. *)
Record unit_ok (u : cu) (dm : bytes) (base : Z) (D : list (Z * decl)) : Prop := UnitOk {
  uo_sizes : sizes_ok u; uo_start : 0 <= u_startp u; uo_end : u_endp u <= zlen (u_mem u); uo_mem : zlen (u_mem u) < two63; uo_4g : u_endp u - u_startp u < two32;
  uo_table : table_at dm base D; uo_uniq : NoDup (map (fun e => dl_code (snd e)) D); uo_31 : Forall (fun e => dl_code (snd e) < 2 ^ 31) D;
  uo_dm : zlen dm < two63 }.
(* The entry at p uses the declaration d; its abbreviation may be known already. *)
Definition die_for (dm : bytes) (D : list (Z * decl)) (p : Z) (d : decl) (x : die) : Prop :=
  d_addr x = p /\ match d_abbrev x with Unknown => True | KnownEnd => False | Known a => exists q len, In (q, d) D /\ offabbrev (Some dm) q = Ok (Got a len) end.

(* A client that visits an entry, the entries below it and those after it with the same parent,
   by dwarf_child and dwarf_siblingof only; it lists the places it sees. *)
Fixpoint walk (fuel : nat) (u : cu) (dm : bytes) (st : acache) (p : Z) : outcome (list Z * acache) :=
  match fuel with
  | O => Fuel
  | S k =>
    ' (m, _, st1) <- dwarf_child u (Some dm) st (Die p Unknown) ;;
    ' (below, st2) <- match m with MovedTo c => walk k u dm st1 c | NoMore => Ok ([], st1) | Failed => Err 1 end ;;
    ' (m2, st3) <- dwarf_siblingof u (Some dm) st2 (Die p Unknown) ;;
    match m2 with
    | MovedTo s => ' (after, st4) <- walk k u dm st3 s ;; Ok (p :: below ++ after, st4)
    | NoMore => Ok (p :: below, st3)
    | Failed => Err 1
    end
  end.

Section Die.
Variables (u : cu) (dm : bytes) (base : Z) (D : list (Z * decl)).
Hypothesis UO : unit_ok u dm base D.

Lemma lookup_in : forall st q d, uses dm base D st -> In (q, d) D -> exists a len st', findabbrev (Some dm) st (dl_code d) = Ok (Some a, st') /\
  offabbrev (Some dm) q = Ok (Got a len) /\ uses dm base D st'.
Proof.
  intros st q d U I. destruct UO. destruct (C50_lookup_partial dm base D st (dl_code d) uo_table0 uo_uniq0 uo_32 uo_dm0 U) as (r & st' & E & A & _).
  destruct (A q d I eq_refl) as (a & len & -> & O). exists a, len, st'. split; [exact E|]. split; [exact O|]. eapply U_lookup; eassumption.
Qed.

Lemma ab_facts : forall q d a len, In (q, d) D -> offabbrev (Some dm) q = Ok (Got a len) ->
  ab_children a = dl_children d /\ ab_tag a = dl_tag d /\
  exists l' e, toks dm (ab_attrp a) l' e /\ map triple l' = map striple (dl_attrs d) /\ (length l' < S (length dm))%nat.
Proof.
  intros q d a len I O. destruct UO as [_ _ _ _ _ TAB UNI B31 _]. destruct (table_inv _ _ _ TAB) as (_ & _ & T). destruct (T q d I) as (_ & b & DB & A).
  destruct (decl_parse d b dm q DB A) as (x & c & q' & X & NX & G & PR & W & R & l' & TK & E & L).
  unfold offabbrev in O. destruct (getabbrev_shape dm None q true R) as [(y & Y & -> & S)|(y & Y & NY & S)]; [congruence|]. rewrite S, G, W, PR in O. injection O as <- _. cbn.
  split; [reflexivity|]. split; [reflexivity|]. exists l', (q + zlen b). split; [exact TK|]. split; [exact E|lia].
Qed.
Lemma code_read : forall p d c q, In (q, d) D -> u32_leb (dl_code d) c -> at_ (u_mem u) p c -> p + zlen c <= u_endp u ->
  get_uleb128 (u_mem u) p (u_endp u) = Ok (dl_code d, p + zlen c) /\ u32 (dl_code d) = dl_code d /\ p < u_endp u.
Proof.
  intros p d c q I [C CB] A L. pose proof (uleb_len _ _ C). pose proof (uleb_of_nonneg _ _ C). split; [apply uleb_at; assumption|]. split; [apply Z.mod_small; lia|lia].
Qed.
Lemma dieabbrev_at : forall st x p q d c rp, uses dm base D st -> die_for dm D p d x -> In (q, d) D -> u32_leb (dl_code d) c -> at_ (u_mem u) p c -> p + zlen c <= u_endp u ->
  exists a len r st', dieabbrev u (Some dm) st x rp = Ok (Some a, r, Die p (Known a), st') /\ (rp = true -> r = p + zlen c) /\
    offabbrev (Some dm) q = Ok (Got a len) /\ uses dm base D st'.
Proof.
  intros st x p q d c rp U [XA XD] I C A L. destruct (code_read p d c q I C A L) as (G & W & LT). unfold dieabbrev. rewrite XA.
  replace (u_endp u <=? p) with false by lia. rewrite G. cbn [obind]. destruct x as [xa xd]. cbn [d_addr d_abbrev] in *. subst xa.
  destruct xd as [| |a]; [|destruct XD|].
  - cbn [negb orb]. rewrite W. destruct (lookup_in st q d U I) as (a & len & st' & E & O & U'). rewrite E. cbn [obind end_or]. exists a, len, (p + zlen c), st'. split; [reflexivity|]. split; [reflexivity|]. split; assumption.
  - destruct XD as (q' & len & I' & O). assert (q' = q) as ->. { destruct UO as [_ _ _ _ _ TAB UNI B31 _]. exact (proj1 (uniq D UNI _ _ _ _ I' I eq_refl)). }
    destruct rp; cbn [negb orb]; [exists a, len, (p + zlen c), st|exists a, len, 0, st]; (split; [reflexivity|]); (split; [congruence|]); split; assumption.
Qed.

(* Values of an entry. *)
Lemma holds_form : forall m f v b, holds m f v b -> f <> 0.
Proof.
  intros m f v b H. destruct H as [form w' n W V|d0 L16|form n d0 K' U|n d0 S0| | |d0 LB|d0 LB|d0 LB|form d0 x F' U|s' F'|form v x d0 U FB FN H]; try lia.
  - cbn in W. repeat (destruct W as [W|W]; [injection W as <- _; lia|]). destruct W.
  - cbn in K'. lia.
Qed.
Lemma striple_form : forall sl s, triple sl = striple s -> s_name sl = a_name s /\ s_form sl = a_fm s /\ s_data sl = match a_const s with Some v => v | None => 0 end.
Proof. intros sl s E. unfold triple, striple in E. injection E as E1 E2 E3. auto. Qed.
Lemma fa_vals : forall l vs vb, vals_bytes (params_of u) l vs vb -> forall l' rp name, map triple l' = map striple l -> at_ (u_mem u) rp vb ->
  u_startp u <= rp -> rp + zlen vb <= u_endp u -> name <> INVALID ->
  match find (fun sv => a_name (fst sv) =? name) (combine l vs) with
  | None => fa_spec u name l' rp = Ok (AtEnd (rp + zlen vb))
  | Some (s, v) =>
    if a_fm s =? 33 then exists sl, In sl l' /\ s_form sl = 33 /\ s_data sl = match a_const s with Some c => c | None => 0 end /\ fa_spec u name l' rp = Ok (InAbbrev name 33 (s_val sl))
    else exists p' b, holds (params_of u) (a_fm s) v b /\ at_ (u_mem u) p' b /\ u_startp u <= p' /\ p' + zlen b <= u_endp u /\ fa_spec u name l' rp = Ok (InDie name (a_fm s) p')
  end.
Proof.
  intros l vs vb H. induction H as [|s v b l vs bs HO H IH]; intros l' rp name E A ST L NI; cbn [combine find].
  - destruct l' as [|sl l']; [|discriminate]. cbn. f_equal. f_equal. lia.
  - destruct l' as [|sl l']; [discriminate|]. cbn [map] in E. assert (E0 : triple sl = striple s) by congruence. assert (E' : map triple l' = map striple l) by congruence. clear E.
    destruct (striple_form _ _ E0) as (EN & EF & ED). rewrite zlen_app in L. pose proof (zlen_nonneg _ bs). pose proof (zlen_nonneg _ b).
    cbn [fst fa_spec]. rewrite EN, EF. replace (negb (name =? INVALID)) with true by lia. rewrite andb_true_r.
    destruct (Z.eqb_spec (a_name s) name) as [->|NN].
    + destruct (a_fm s =? 33) eqn:E33.
      * exists sl. split; [left; reflexivity|]. split; [lia|]. split; [exact ED|]. reflexivity.
      * exists rp, b. split; [exact HO|]. split; [exact (at_app1 _ _ _ _ A)|]. split; [exact ST|]. split; [lia|reflexivity].
    + pose proof (holds_form _ _ _ _ HO) as NZ. replace (a_fm s =? 0) with false by lia.
      destruct UO as [SZ US UE UM U4 _ _ _ _].
      rewrite (C34_size_partial u (a_fm s) v b rp SZ ltac:(lia) HO (at_app1 _ _ _ _ A)) by lia.
      specialize (IH l' (rp + zlen b) name E' (at_app2 _ _ _ _ A) ltac:(lia) ltac:(lia) NI). 
      destruct (find (fun sv => a_name (fst sv) =? name) (combine l vs)) as [[s1 v1]|].
      * destruct (a_fm s1 =? 33); [|exact IH]. destruct IH as (sl1 & I1 & R). exists sl1. split; [right; exact I1|exact R].
      * rewrite IH. rewrite zlen_app. do 2 f_equal. lia.
Qed.
Lemma fa_invalid : forall l vs vb, vals_bytes (params_of u) l vs vb -> forall l' rp, map triple l' = map striple l -> at_ (u_mem u) rp vb ->
  u_startp u <= rp -> rp + zlen vb <= u_endp u -> fa_spec u INVALID l' rp = Ok (AtEnd (rp + zlen vb)).
Proof.
  intros l vs vb H. induction H as [|s v b l vs bs HO H IH]; intros l' rp E A ST L.
  - destruct l' as [|sl l']; [|discriminate]. cbn. f_equal. f_equal. lia.
  - destruct l' as [|sl l']; [discriminate|]. cbn [map] in E. assert (E0 : triple sl = striple s) by congruence. assert (E' : map triple l' = map striple l) by congruence. clear E.
    destruct (striple_form _ _ E0) as (EN & EF & ED). rewrite zlen_app in L. pose proof (zlen_nonneg _ bs). pose proof (zlen_nonneg _ b).
    cbn [fa_spec]. rewrite Z.eqb_refl. cbn [negb]. rewrite andb_false_r, EF. pose proof (holds_form _ _ _ _ HO) as NZ. replace (a_fm s =? 0) with false by lia.
    destruct UO as [SZ US UE UM U4 _ _ _ _].
    rewrite (C34_size_partial u (a_fm s) v b rp SZ ltac:(lia) HO (at_app1 _ _ _ _ A)) by lia.
    rewrite (IH l' (rp + zlen b) E' (at_app2 _ _ _ _ A)) by lia. rewrite zlen_app. do 2 f_equal. lia.
Qed.

(* Attribute search in an entry: c the bytes of its code, vb those of its values. *)
Lemma find_attr_at : forall st x p q d vs c vb name, uses dm base D st -> die_for dm D p d x -> In (q, d) D -> u32_leb (dl_code d) c ->
  vals_bytes (params_of u) (dl_attrs d) vs vb -> at_ (u_mem u) p (c ++ vb) -> u_startp u <= p -> p + zlen (c ++ vb) <= u_endp u ->
  exists a len st', offabbrev (Some dm) q = Ok (Got a len) /\ uses dm base D st' /\
    if name =? INVALID then find_attr u (Some dm) st x name = Ok (AtEnd (p + zlen (c ++ vb)), Die p (Known a), st')
    else match find (fun sv => a_name (fst sv) =? name) (combine (dl_attrs d) vs) with
    | None => find_attr u (Some dm) st x name = Ok (AtEnd (p + zlen (c ++ vb)), Die p (Known a), st')
    | Some (s, v) =>
      if a_fm s =? 33 then exists z e, get_sleb128_unchecked dm z = Ok (match a_const s with Some k => k | None => 0 end, e) /\
        find_attr u (Some dm) st x name = Ok (InAbbrev name 33 z, Die p (Known a), st')
      else exists p' b, holds (params_of u) (a_fm s) v b /\ at_ (u_mem u) p' b /\ u_startp u <= p' /\ p' + zlen b <= u_endp u /\
        find_attr u (Some dm) st x name = Ok (InDie name (a_fm s) p', Die p (Known a), st')
    end.
Proof.
  intros st x p q d vs c vb name U XF I C V A ST L. rewrite zlen_app in L. pose proof (zlen_nonneg _ vb). pose proof (zlen_nonneg _ c).
  destruct (dieabbrev_at st x p q d c true U XF I C (at_app1 _ _ _ _ A) ltac:(lia)) as (a & len & r & st' & E & R & O & U'). specialize (R eq_refl). subst r.
  exists a, len, st'. split; [exact O|]. split; [exact U'|]. unfold find_attr. rewrite E. cbn [obind].
  destruct (ab_facts q d a len I O) as (_ & _ & l' & e & TK & ME & FU). rewrite (fa_walk_toks _ _ _ _ TK) by exact FU. rewrite zlen_app, Z.add_assoc.
  destruct (Z.eqb_spec name INVALID) as [->|NI].
  - rewrite (fa_invalid _ _ _ V l' (p + zlen c) ME (at_app2 _ _ _ _ A)) by lia. reflexivity.
  - pose proof (fa_vals _ _ _ V l' (p + zlen c) name ME (at_app2 _ _ _ _ A) ltac:(lia) ltac:(lia) NI) as F.
    destruct (find (fun sv => a_name (fst sv) =? name) (combine (dl_attrs d) vs)) as [[s v]|]; [|rewrite F; reflexivity].
    destruct (a_fm s =? 33).
    + destruct F as (sl & IL & F33 & FD & FS). assert (TI : exists e', get_sleb128_unchecked dm (s_val sl) = Ok (s_data sl, e')).
      { clear - TK IL F33. induction TK as [p q T|p n f q l e T NZ NF L H IH|p n q d q' l e T D L L' H IH]; [destruct IL| |].
        - destruct IL as [<-|IL]; [cbn in F33; congruence|exact (IH IL)].
        - destruct IL as [<-|IL]; [exists q'; exact D|exact (IH IL)]. }
      destruct TI as [e' TI]. exists (s_val sl), e'. split; [rewrite TI, FD; reflexivity|]. rewrite FS. reflexivity.
    + destruct F as (p' & b & F1 & F2 & F3 & F4 & F5). exists p', b. do 4 (split; [assumption|]). rewrite F5. reflexivity.
Qed.

(* Moving in the tree. *)
Lemma at_znth : forall mem p v (rest : bytes), at_ mem p (v :: rest) -> znth mem p = Some v.
Proof.
  intros mem p v rest H. change (v :: rest) with ([v] ++ rest) in H. apply at_split in H as (pre & post & -> & <-).
  rewrite znth_app_r by lia. rewrite Z.sub_diag. reflexivity.
Qed.
Lemma code_pos : forall q d, In (q, d) D -> 0 < dl_code d.
Proof.
  intros q d I. destruct UO as [_ _ _ _ _ TAB UNI B31 _]. destruct (table_inv _ _ _ TAB) as (_ & _ & T). destruct (T q d I) as (_ & b & (c & t & ab & E & C & P & R) & A). exact P.
Qed.
Lemma code_head : forall v c, uleb_of v c -> 0 < v -> exists x r, c = x :: r /\ x <> 0.
Proof.
  intros v [|x r] (LC & L & V & B) P; [destruct LC|]. exists x, r. split; [reflexivity|]. intros ->. destruct r; cbn in LC, V; lia.
Qed.
Lemma null_code : forall (c : bytes) v p k (r : bytes), LebSpec.leb_complete c -> uleb_value c = v -> 0 < v -> at_ (u_mem u) p (c ++ r) -> p + zlen c <= u_endp u -> (length c <= k)%nat ->
  null_entry k u p = Ok false.
Proof.
  induction c as [|x c IH]; intros v p k r LC V P A L K; [destruct LC|]. rewrite zlen_cons in L. pose proof (zlen_nonneg _ c).
  destruct k as [|k]; cbn [length] in K; [lia|]. cbn [null_entry]. replace (u_endp u <=? p) with false by lia. cbn [app] in A. rewrite (at_znth _ _ _ _ A).
  destruct c as [|y c].
  - cbn in LC, V. replace (x =? 128) with false by lia. f_equal. rewrite Z.mod_small in V by lia. lia.
  - destruct LC as [X LC]. destruct (Z.eqb_spec x 128) as [->|N]; [|f_equal; lia].
    apply (IH (uleb_value (y :: c)) (p + 1) k r LC eq_refl); [change (128 mod 128 + 128 * uleb_value (y :: c) = v) in V; change (128 mod 128) with 0 in V; lia|exact (at_shift _ _ _ _ A)|lia|cbn [length] in *; lia].
Qed.

Definition located (t : tree) (b : bytes) : Prop :=
  entry (params_of u) (u_startp u) D t b /\ at_ (u_mem u) (place t) b /\ u_startp u <= place t /\ place t + zlen b <= u_endp u.

Lemma entry_head : forall t b, entry (params_of u) (u_startp u) D t b -> exists p d vs ch c vb q rest, t = Node p d vs ch /\ b = (c ++ vb) ++ rest /\ In (q, d) D /\
  u32_leb (dl_code d) c /\ vals_bytes (params_of u) (dl_attrs d) vs vb.
Proof.
  intros t b H. destruct H as [p q d vs c vb I N C V SB|p q d vs ch c vb fb I N C V SB F].
  - exists p, d, vs, [], c, vb, q, []. rewrite app_nil_r. auto.
  - exists p, d, vs, ch, c, vb, q, (fb ++ [0]). rewrite <- app_assoc. auto.
Qed.
Lemma entry_first : forall t b, entry (params_of u) (u_startp u) D t b -> exists x r, b = x :: r /\ x <> 0.
Proof.
  intros t b H. destruct (entry_head t b H) as (p & d & vs & ch & c & vb & q & rest & -> & -> & I & C & V).
  destruct (code_head _ _ (proj1 C) (code_pos q d I)) as (x & r & -> & N). exists x. eexists. split; [reflexivity|exact N].
Qed.

Lemma skip_fuel : forall f1 f2 lev p, u_endp u - p <= Z.of_nat f1 -> u_endp u - p <= Z.of_nat f2 -> skip_nulls (S f1) u lev p = skip_nulls (S f2) u lev p.
Proof.
  induction f1 as [|f1 IH]; intros f2 lev p L1 L2.
  - cbn [skip_nulls]. replace (u_endp u <=? p) with true by lia. reflexivity.
  - destruct f2 as [|f2].
    + cbn [skip_nulls]. replace (u_endp u <=? p) with true by lia. reflexivity.
    + change (skip_nulls (S (S f1)) u lev p) with (if u_endp u <=? p then Ok (inl NoMore) else match znth (u_mem u) p with None => UB | Some x => if negb (x =? 0) then Ok (inr (lev, p)) else if lev =? 0 then Ok (inl NoMore) else skip_nulls (S f1) u (lev - 1) (p + 1) end).
      change (skip_nulls (S (S f2)) u lev p) with (if u_endp u <=? p then Ok (inl NoMore) else match znth (u_mem u) p with None => UB | Some x => if negb (x =? 0) then Ok (inr (lev, p)) else if lev =? 0 then Ok (inl NoMore) else skip_nulls (S f2) u (lev - 1) (p + 1) end).
      rewrite (IH f2 (lev - 1) (p + 1)) by lia. reflexivity.
Qed.
(* dwarf_siblingof after the entry it looks at *)
Definition cont (k : nat) (st : acache) (level p : Z) : outcome (moved * acache) :=
  r <- skip_nulls (S (length (u_mem u))) u level p ;;
  match r with
  | inl m => Ok (m, st)
  | inr (level', p) => if level' =? 0 then Ok (MovedTo p, st) else sib_walk k u (Some dm) st level' (Die p Unknown)
  end.
Lemma cont_zero : forall k st level p, at_ (u_mem u) p [0] -> p < u_endp u -> 0 < level -> cont k st level p = cont k st (level - 1) (p + 1).
Proof.
  intros k st level p A L P. unfold cont. f_equal. pose proof (uo_end _ _ _ _ UO) as UE. unfold zlen in UE. destruct A as (A0 & A1 & A2).
  transitivity (skip_nulls (S (S (length (u_mem u)))) u level p); [apply skip_fuel; lia|].
  change (skip_nulls (S (S (length (u_mem u)))) u level p) with (if u_endp u <=? p then Ok (inl NoMore) else match znth (u_mem u) p with None => UB | Some x => if negb (x =? 0) then Ok (inr (level, p)) else if level =? 0 then Ok (inl NoMore) else skip_nulls (S (length (u_mem u))) u (level - 1) (p + 1) end).
  rewrite (at_znth _ _ 0 []) by (split; [exact A0|split; assumption]). cbn [Z.eqb negb]. replace (level =? 0) with false by lia. replace (u_endp u <=? p) with false by lia. reflexivity.
Qed.
Lemma cont_entry : forall k st level p x (r : bytes), at_ (u_mem u) p (x :: r) -> x <> 0 -> p < u_endp u ->
  cont k st level p = if level =? 0 then Ok (MovedTo p, st) else sib_walk k u (Some dm) st level (Die p Unknown).
Proof.
  intros k st level p x r A N L. unfold cont. remember (length (u_mem u)) as fu. cbn [skip_nulls]. rewrite (at_znth _ _ _ _ A).
  replace (u_endp u <=? p) with false by lia. replace (negb (x =? 0)) with true by lia. reflexivity.
Qed.
Lemma sib_step : forall k st level x, sib_walk (S k) u (Some dm) st level x =
  (' (f, d', st') <- find_attr u (Some dm) st x DW_AT_sibling ;;
   match f with
   | InDie n form p =>
     match formref u (Attr n form p []) with
     | Ok off => if (u64 (u_endp u - u_startp u) <=? off) || (off <=? u64 (d_addr x - u_startp u)) then Ok (Failed, st') else cont k st' level (u_startp u + off)
     | Err _ => Ok (Failed, st') | UB => UB | Fuel => Fuel
     end
   | InAbbrev _ _ _ => Ok (Failed, st')
   | Bad => Ok (Failed, st')
   | AtEnd addr => match d_abbrev d' with Known a => cont k st' (if ab_children a then u32 (level + 1) else level) addr | _ => Ok (Failed, st') end
   end).
Proof. reflexivity. Qed.

(* One entry with its sibling attribute or none. *)
Lemma sib_one : forall st x p q d vs c vb rest level k, uses dm base D st -> die_for dm D p d x -> In (q, d) D -> u32_leb (dl_code d) c ->
  vals_bytes (params_of u) (dl_attrs d) vs vb -> at_ (u_mem u) p (c ++ vb) -> u_startp u <= p -> p + zlen (c ++ vb) <= u_endp u -> 0 <= rest ->
  let next := p + zlen (c ++ vb) + rest in
  next <= u_endp u -> sibling_ok (u_startp u) next (dl_attrs d) vs -> (next < u_endp u \/ forall s, In s (dl_attrs d) -> a_name s <> 1) ->
  exists st', uses dm base D st' /\
    (sib_walk (S k) u (Some dm) st level x = cont k st' level next \/
     sib_walk (S k) u (Some dm) st level x = cont k st' (if dl_children d then u32 (level + 1) else level) (p + zlen (c ++ vb))).
Proof.
  intros st x p q d vs c vb rest level k U XF I C V A ST L R0 next NE SO NX.
  destruct (find_attr_at st x p q d vs c vb 1 U XF I C V A ST L) as (a & len & st' & O & U' & F). cbn [Z.eqb] in F. change (1 =? INVALID) with false in F. cbn iota in F.
  exists st'. split; [exact U'|]. rewrite sib_step. change DW_AT_sibling with 1. destruct (ab_facts q d a len I O) as (CH & _).
  destruct (find (fun sv => a_name (fst sv) =? 1) (combine (dl_attrs d) vs)) as [[s v]|] eqn:FE.
  - apply find_some in FE as [FI FN]. cbn [fst] in FN. apply Z.eqb_eq in FN.
    pose proof (proj1 (Forall_forall _ _) SO _ FI FN) as [FM FV]. cbn [fst snd] in FM, FV. subst v.
    assert (E33 : a_fm s =? 33 = false) by (cbn in FM; lia). rewrite E33 in F. destruct F as (p' & b & HO & A' & S' & L' & F). rewrite F. cbn [obind].
    pose proof (uo_end _ _ _ _ UO). pose proof (uo_mem _ _ _ _ UO). pose proof (uo_start _ _ _ _ UO).
    destruct (C49_ref u (Attr 1 (a_fm s) p' []) (Unsigned (next - u_startp u)) b) as (n & EN & FR).
    { split; [exact (uo_sizes _ _ _ _ UO)|]. repeat (split; [assumption|]). assumption. }
    { exact FM. }
    injection EN as <-. rewrite FR. assert (LT : next < u_endp u).
    { destruct NX as [NX|NX]; [exact NX|]. apply in_combine_l in FI. destruct (NX s FI FN). }
    assert (NP : p < next) by (subst next; rewrite zlen_app; pose proof (uleb_len _ _ (proj1 C)); pose proof (zlen_nonneg _ vb); lia). clearbody next. destruct XF as [XA _]. rewrite XA. rewrite !u64_small by lia.
    replace (u_endp u - u_startp u <=? next - u_startp u) with false by lia. replace (next - u_startp u <=? p - u_startp u) with false by lia.
    cbn [orb]. left. f_equal. lia.
  - rewrite F. cbn [obind d_abbrev]. right. rewrite CH. reflexivity.
Qed.

Lemma sib_forest :
  (forall t b, entry (params_of u) (u_startp u) D t b -> forall x st level n, uses dm base D st ->
     die_for dm D (place t) (match t with Node _ d _ _ => d end) x -> at_ (u_mem u) (place t) b -> u_startp u <= place t -> place t + zlen b <= u_endp u ->
     (place t + zlen b < u_endp u \/ forall s, In s (match t with Node _ d _ _ => dl_attrs d end) -> a_name s <> 1) ->
     0 <= level -> level + zlen b < two32 -> u_endp u - place t < Z.of_nat n ->
     exists n' st', sib_walk n u (Some dm) st level x = cont n' st' level (place t + zlen b) /\ uses dm base D st' /\ u_endp u - (place t + zlen b) < Z.of_nat n') /\
  (forall p ts b, forest (params_of u) (u_startp u) D p ts b -> forall st level n, uses dm base D st -> at_ (u_mem u) p b -> u_startp u <= p -> p + zlen b < u_endp u ->
     0 < level -> level + zlen b < two32 -> u_endp u - p < Z.of_nat n ->
     exists n' st', cont n st level p = cont n' st' level (p + zlen b) /\ uses dm base D st' /\ u_endp u - (p + zlen b) < Z.of_nat n').
Proof.
  apply entry_forest_ind.
  - intros p q d vs c vb I N C V SB x st level n U XF A ST L NX LV LB FU. cbn [place] in *.
    destruct n as [|n]; [pose proof (zlen_nonneg _ (c ++ vb)); lia|].
    destruct (sib_one st x p q d vs c vb 0 level n U XF I C V A ST L ltac:(lia)) as (st' & U' & H); cbv zeta; rewrite ?Z.add_0_r; try assumption.
    rewrite N, Z.add_0_r in H. pose proof (uleb_len _ _ (proj1 C)). exists n, st'. split; [destruct H as [H|H]; exact H|]. split; [exact U'|]. rewrite zlen_app. pose proof (zlen_nonneg _ vb). lia.
  - intros p q d vs ch c vb fb I N C V SB F IH x st level n U XF A ST L NX LV LB FU. cbn [place] in *.
    assert (AE : c ++ vb ++ fb ++ [0] = (c ++ vb) ++ fb ++ [0]) by (rewrite <- app_assoc; reflexivity). rewrite AE in *. clear AE.
    destruct n as [|n]; [pose proof (zlen_nonneg _ ((c ++ vb) ++ fb ++ [0])); lia|]. pose proof (uleb_len _ _ (proj1 C)). pose proof (zlen_nonneg _ vb). pose proof (zlen_nonneg _ fb).
    assert (ZL : zlen ((c ++ vb) ++ fb ++ [0]) = zlen (c ++ vb) + (zlen fb + 1)) by (rewrite !zlen_app; reflexivity). assert (ZC : zlen (c ++ vb) = zlen c + zlen vb) by apply zlen_app.
    rewrite ZL in *. rewrite Z.add_assoc in SB, NX, L.
    destruct (sib_one st x p q d vs c vb (zlen fb + 1) level n U XF I C V (at_app1 _ _ _ _ A) ST ltac:(lia) ltac:(lia)) as (st' & U' & HS); cbv zeta; try assumption.
    rewrite N in HS. replace (u32 (level + 1)) with (level + 1) in HS by (symmetry; apply Z.mod_small; lia).
    destruct HS as [HS|HS].
    + exists n, st'. rewrite HS. split; [f_equal; lia|]. split; [exact U'|lia].
    + pose proof (at_app2 _ _ _ _ A) as A2. pose proof (at_app2 _ _ _ _ A2) as A3.
      destruct (IH st' (level + 1) n U' (at_app1 _ _ _ _ A2)) as (n' & st2 & E & U2 & FU2); try lia.
      exists n', st2. rewrite HS, E. rewrite cont_zero; [|exact A3|lia|lia]. split; [f_equal; lia|]. split; [exact U2|lia].
  - intros p st level n U A ST L LV LB FU. exists n, st. change (zlen []) with 0 in *. rewrite Z.add_0_r in *. split; [reflexivity|]. split; [exact U|lia].
  - intros t b ts bs E IH1 F IH2 st level n U A ST L LV LB FU. rewrite zlen_app in *. pose proof (zlen_nonneg _ b). pose proof (zlen_nonneg _ bs).
    destruct (entry_first t b E) as (x & r & EB & NX). assert (HD : at_ (u_mem u) (place t) (x :: r ++ bs)) by (rewrite EB in A; exact A).
    rewrite (cont_entry n st level (place t) x _ HD NX) by (rewrite EB, zlen_cons in L; pose proof (zlen_nonneg _ r); lia). replace (level =? 0) with false by lia.
    destruct (IH1 (Die (place t) Unknown) st level n U) as (n1 & st1 & E1 & U1 & F1); try lia.
    { split; [reflexivity|exact Logic.I]. } { exact (at_app1 _ _ _ _ A). }
    destruct (IH2 st1 level n1 U1 (at_app2 _ _ _ _ A)) as (n2 & st2 & E2 & U2 & F2); try lia.
    exists n2, st2. rewrite E1, E2. split; [f_equal; lia|]. split; [exact U2|lia].
Qed.

Lemma forest_split : forall ts1 p t ts2 b, forest (params_of u) (u_startp u) D p (ts1 ++ t :: ts2) b -> at_ (u_mem u) p b -> u_startp u <= p -> p + zlen b <= u_endp u ->
  exists b' r, located t b' /\ forest (params_of u) (u_startp u) D (place t + zlen b') ts2 r /\ at_ (u_mem u) (place t + zlen b') r /\ place t + zlen b' + zlen r = p + zlen b /\ p <= place t.
Proof.
  induction ts1 as [|t1 ts1 IH]; intros p t ts2 b F A ST L; cbn [app] in F; inversion F as [|t' b' ts' bs E F' P1 P2 P3]; subst; rewrite zlen_app in *; pose proof (zlen_nonneg _ bs); pose proof (zlen_nonneg _ b').
  - exists b', bs. split. { split; [exact E|]. split; [exact (at_app1 _ _ _ _ A)|]. split; [exact ST|lia]. }
    split; [exact F'|]. split; [exact (at_app2 _ _ _ _ A)|]. lia.
  - destruct (IH _ t ts2 bs F' (at_app2 _ _ _ _ A)) as (b2 & r & G1 & G2 & G3 & G4 & G5); try lia. exists b2, r. do 3 (split; [assumption|]). lia.
Qed.
Lemma located_children : forall t b ts1 c ts2, located t b -> children_of t = ts1 ++ c :: ts2 -> exists b' r, located c b' /\
  forest (params_of u) (u_startp u) D (place c + zlen b') ts2 r /\ at_ (u_mem u) (place c + zlen b') (r ++ [0]) /\ place c + zlen b' + zlen r + 1 = place t + zlen b /\ place t < place c.
Proof.
  intros t b ts1 c ts2 (E & A & ST & L) CH. inversion E as [p q d vs cb vb I N C V SB P1 P2|p q d vs ch cb vb fb I N C V SB F P1 P2]; subst; cbn [children_of place] in *; [destruct ts1; discriminate|].
  assert (AE : cb ++ vb ++ fb ++ [0] = (cb ++ vb) ++ fb ++ [0]) by (rewrite <- app_assoc; reflexivity). rewrite AE in *. clear AE. subst ch. rewrite !zlen_app in L. change (zlen [0]) with 1 in L.
  pose proof (uleb_len _ _ (proj1 C)). pose proof (zlen_nonneg _ vb). pose proof (zlen_nonneg _ fb). pose proof (at_app2 _ _ _ _ A) as A2.
  destruct (forest_split ts1 _ c ts2 fb F (at_app1 _ _ _ _ A2)) as (b' & r & G1 & G2 & H3 & H4 & H5); try (rewrite ?zlen_app; lia).
  exists b', r. split; [exact G1|]. split; [exact G2|].
  assert (EQ : place c + zlen b' + zlen r = p + zlen (cb ++ vb) + zlen fb) by exact H4. pose proof (at_app2 _ _ _ _ A2) as A3. rewrite <- EQ in A3.
  split; [|rewrite !zlen_app in *; change (zlen [0]) with 1; lia].
  destruct H3 as (B1 & B2 & B3), A3 as (B4 & B5 & B6). change (zlen [0]) with 1 in *. split; [exact B1|]. rewrite zlen_app. change (zlen [0]) with 1. split; [lia|].
  rewrite zsub_join by (try apply zlen_nonneg; lia). rewrite B3, B6. reflexivity.
Qed.
Lemma located_sub : forall s t, subtree s t -> forall b, located t b -> exists b', located s b'.
Proof.
  intros s t H. induction H as [t|t c p d vs ch IC H IH]; intros b L; [exists b; exact L|].
  apply in_split in IC as (ts1 & ts2 & EC). destruct (located_children _ b ts1 c ts2 L EC) as (b' & r & L' & _). exact (IH b' L').
Qed.

Lemma child_at : forall t b st x, located t b -> uses dm base D st -> die_for dm D (place t) (decl_of t) x ->
  exists x' st', dwarf_child u (Some dm) st x = Ok (match children_of t with [] => NoMore | c :: _ => MovedTo (place c) end, x', st') /\
    uses dm base D st' /\ die_for dm D (place t) (decl_of t) x'.
Proof.
  intros t b st x (E & A & ST & L) U XF. unfold dwarf_child.
  destruct (entry_head t b E) as (p & d & vs & ch & c & vb & q & rest & ET & EB & I & C & V). subst t. cbn [place decl_of children_of] in *. rewrite EB in A, L.
  pose proof (zlen_nonneg _ rest). pose proof (zlen_nonneg _ vb). rewrite zlen_app in L. assert (ZC : zlen (c ++ vb) = zlen c + zlen vb) by apply zlen_app.
  destruct (dieabbrev_at st x p q d c false U XF I C (at_app1 _ _ _ _ (at_app1 _ _ _ _ A)) ltac:(lia)) as (a & len & r & st' & DE & _ & O & U'). rewrite DE. cbn [obind].
  destruct (ab_facts q d a len I O) as (CH & _). rewrite CH.
  assert (XF' : die_for dm D p d (Die p (Known a))) by (split; [reflexivity|exists q, len; split; assumption]).
  inversion E as [p0 q0 d0 vs0 c0 vb0 I0 N0 C0 V0 SB0 P1 P2|p0 q0 d0 vs0 ch0 c0 vb0 fb0 I0 N0 C0 V0 SB0 F0 P1 P2]; subst p0 d0 vs0; [subst ch|subst ch0]; rewrite N0; cbn [negb].
  - exists (Die p (Known a)), st'. split; [reflexivity|]. split; [exact U'|exact XF'].
  - assert (AE : c0 ++ vb0 ++ fb0 ++ [0] = (c0 ++ vb0) ++ fb0 ++ [0]) by (rewrite <- app_assoc; reflexivity). 
    assert (A0 : at_ (u_mem u) p ((c0 ++ vb0) ++ fb0 ++ [0])) by (rewrite <- AE, P2, EB; exact A).
    assert (L0 : p + zlen ((c0 ++ vb0) ++ fb0 ++ [0]) <= u_endp u) by (rewrite <- AE, P2, EB, zlen_app; lia).
    rewrite zlen_app in L0. rewrite (zlen_app _ fb0) in L0. change (zlen [0]) with 1 in L0. pose proof (zlen_nonneg _ fb0).
    destruct (find_attr_at st' (Die p (Known a)) p q0 d vs c0 vb0 INVALID U' XF' I0 C0 V0 (at_app1 _ _ _ _ A0) ST ltac:(lia)) as (a' & len' & st2 & O' & U2 & FA).
    rewrite Z.eqb_refl in FA. rewrite FA. cbn [obind].
    assert (NE : null_entry (S (length (u_mem u))) u (p + zlen (c0 ++ vb0)) = Ok (match ch with [] => true | _ => false end) /\ match ch with [] => True | t :: _ => place t = p + zlen (c0 ++ vb0) end).
    { pose proof (at_app2 _ _ _ _ A0) as A1. inversion F0 as [pp EP1 EP2 EP3|t1 b1 ts1 bs1 E1 F1 EP1 EP2 EP3].
      - split; [|exact Logic.I]. subst fb0. cbn [app] in A1. remember (length (u_mem u)) as fu. cbn [null_entry]. rewrite (at_znth _ _ _ _ A1).
        replace (u_endp u <=? p + zlen (c0 ++ vb0)) with false by lia. reflexivity.
      - split; [|reflexivity]. rewrite <- EP1 in A1. rewrite (zlen_app _ c0) in EP1, L0. destruct (entry_head t1 b1 E1) as (p1 & d1 & vs1 & ch1 & c1 & vb1 & q1 & rest1 & ET1 & EB1 & I1 & C1 & V1).
        subst fb0. rewrite EB1, <- !app_assoc in A1. rewrite EB1, !zlen_app in L0.
        pose proof (zlen_nonneg _ vb1). pose proof (zlen_nonneg _ rest1). pose proof (zlen_nonneg _ bs1). pose proof (zlen_nonneg _ c1).
        destruct (at_bound _ _ _ A1) as [B0 B1]. rewrite !zlen_app in B1. change (zlen [0]) with 1 in B1.
        apply (null_code c1 (dl_code d1) _ _ _ (proj1 (proj1 C1)) (proj1 (proj2 (proj2 (proj1 C1)))) (code_pos _ _ I1) A1); [lia|]. unfold zlen in *. lia. }
    destruct NE as [NE PL]. rewrite NE. cbn [obind].
    exists (Die p (Known a')), st2. split; [destruct ch as [|t1 ts1]; [reflexivity|rewrite PL; reflexivity]|]. split; [exact U2|]. split; [reflexivity|]. exists q0, len'. split; assumption.
Qed.

Lemma sibling_inner : forall t b t1 b1 r st x, located t b -> uses dm base D st -> die_for dm D (place t) (decl_of t) x ->
  (at_ (u_mem u) (place t + zlen b) (0 :: r) /\ place t + zlen b < u_endp u -> exists st', dwarf_siblingof u (Some dm) st x = Ok (NoMore, st') /\ uses dm base D st') /\
  (located t1 b1 -> place t1 = place t + zlen b -> exists st', dwarf_siblingof u (Some dm) st x = Ok (MovedTo (place t1), st') /\ uses dm base D st') /\
  (place t + zlen b = u_endp u -> (forall s, In s (dl_attrs (decl_of t)) -> a_name s <> 1) -> exists st', dwarf_siblingof u (Some dm) st x = Ok (NoMore, st') /\ uses dm base D st').
Proof.
  intros t b t1 b1 r st x (E & A & ST & L) U XF. unfold dwarf_siblingof.
  pose proof (uo_4g _ _ _ _ UO). pose proof (uo_end _ _ _ _ UO). pose proof (uo_start _ _ _ _ UO). pose proof (zlen_nonneg _ b).
  assert (ST2 : place t + zlen b < u_endp u \/ (forall s, In s (match t with Node _ d _ _ => dl_attrs d end) -> a_name s <> 1) ->
    exists n' st', sib_walk (S (length (u_mem u))) u (Some dm) st 0 x = cont n' st' 0 (place t + zlen b) /\ uses dm base D st' /\ u_endp u - (place t + zlen b) < Z.of_nat n').
  { intro NX. destruct t as [p d vs ch]. apply (proj1 sib_forest _ _ E); try assumption; try lia. cbn [place] in *. unfold zlen in *. lia. }
  split; [|split].
  - intros [A0 L0]. destruct (ST2 (or_introl L0)) as (n' & st' & E' & U' & _). exists st'. split; [|exact U']. rewrite E'. unfold cont. remember (length (u_mem u)) as fu. cbn [skip_nulls].
    replace (u_endp u <=? place t + zlen b) with false by lia. rewrite (at_znth _ _ _ _ A0). reflexivity.
  - intros (E1 & A1 & ST1 & L1) P1. destruct (entry_first t1 b1 E1) as (y & r1 & EB & NY). rewrite EB in A1. rewrite EB, zlen_cons in L1. pose proof (zlen_nonneg _ r1).
    destruct (ST2 ltac:(left; lia)) as (n' & st' & E' & U' & _). exists st'. split; [|exact U']. rewrite E', <- P1. rewrite (cont_entry _ _ _ _ _ _ A1 NY) by lia. reflexivity.
  - intros EE NS. destruct (ST2 ltac:(right; destruct t; exact NS)) as (n' & st' & E' & U' & _). exists st'. split; [|exact U']. rewrite E'. unfold cont. remember (length (u_mem u)) as fu. cbn [skip_nulls].
    replace (u_endp u <=? place t + zlen b) with true by lia. reflexivity.
Qed.
Lemma sibling_at : forall t b ts1 c ts2 st x, located t b -> children_of t = ts1 ++ c :: ts2 -> uses dm base D st -> die_for dm D (place c) (decl_of c) x ->
  exists st', dwarf_siblingof u (Some dm) st x = Ok (match ts2 with [] => NoMore | s :: _ => MovedTo (place s) end, st') /\ uses dm base D st'.
Proof.
  intros t b ts1 c ts2 st x LT CH U XF. destruct (located_children t b ts1 c ts2 LT CH) as (b' & r & LC & F & A & EQ & _). pose proof (proj2 (proj2 (proj2 LT))) as LL. pose proof (zlen_nonneg _ r).
  destruct ts2 as [|s ts2].
  - assert (r = []) as -> by (inversion F; reflexivity). assert (BB : place c + zlen b' < u_endp u). { change (zlen []) with 0 in EQ. lia. } exact (proj1 (sibling_inner c b' c b' [] st x LC U XF) (conj A BB)).
  - destruct (located_children t b (ts1 ++ [c]) s ts2 LT) as (b2 & r2 & LS & _); [rewrite CH, <- app_assoc; reflexivity|].
    inversion F; subst. exact (proj1 (proj2 (sibling_inner c b' s b2 [] st x LC U XF)) LS ltac:(assumption)).
Qed.

Lemma preorder_eq : forall t, preorder t = place t :: concat (map preorder (children_of t)).
Proof. destruct t; reflexivity. Qed.
Lemma child_walk : forall k c b st (IH : forall t b ts1 c ts2 st, located t b -> children_of t = ts1 ++ c :: ts2 -> uses dm base D st -> u_endp u - place c < Z.of_nat k ->
    exists st', walk k u dm st (place c) = Ok (concat (map preorder (c :: ts2)), st') /\ uses dm base D st'),
  located c b -> uses dm base D st -> u_endp u - place c < Z.of_nat (S k) ->
  exists m x' st1 st2, dwarf_child u (Some dm) st (Die (place c) Unknown) = Ok (m, x', st1) /\
    match m with MovedTo c => walk k u dm st1 c | NoMore => Ok ([], st1) | Failed => Err 1 end = Ok (concat (map preorder (children_of c)), st2) /\ uses dm base D st2.
Proof.
  intros k c b st IH L U F. destruct (child_at c b st (Die (place c) Unknown) L U ltac:(split; [reflexivity|exact Logic.I])) as (x' & st1 & E & U1 & _).
  destruct (children_of c) as [|c1 r] eqn:CH.
  - exists NoMore, x', st1, st1. split; [exact E|]. split; [reflexivity|exact U1].
  - destruct (located_children c b [] c1 r L CH) as (b1 & r1 & _ & _ & _ & _ & LT). destruct (IH c b [] c1 r st1 L CH U1 ltac:(lia)) as (st2 & W & U2).
    exists (MovedTo (place c1)), x', st1, st2. split; [exact E|]. split; [exact W|exact U2].
Qed.
Lemma walk_children : forall n t b ts1 c ts2 st, located t b -> children_of t = ts1 ++ c :: ts2 -> uses dm base D st -> u_endp u - place c < Z.of_nat n ->
  exists st', walk n u dm st (place c) = Ok (concat (map preorder (c :: ts2)), st') /\ uses dm base D st'.
Proof.
  induction n as [|k IH]; intros t b ts1 c ts2 st L CH U F.
  - destruct (located_children t b ts1 c ts2 L CH) as (b1 & r1 & (_ & _ & _ & LC) & _). pose proof (zlen_nonneg _ b1). lia.
  - destruct (located_children t b ts1 c ts2 L CH) as (b1 & r1 & LC & F1 & A1 & EQ & LT). pose proof (zlen_nonneg _ r1). pose proof (zlen_nonneg _ b1). destruct (entry_first _ _ (proj1 LC)) as (y & ry & EB & _). 
    assert (B1 : 0 < zlen b1) by (rewrite EB, zlen_cons; pose proof (zlen_nonneg _ ry); lia).
    destruct (child_walk k c b1 st IH LC U F) as (m & x' & st1 & st2 & E & W & U2). cbn [walk]. rewrite E. cbn [obind]. rewrite W. cbn [obind].
    destruct (sibling_at t b ts1 c ts2 st2 (Die (place c) Unknown) L CH U2 ltac:(split; [reflexivity|exact Logic.I])) as (st3 & ES & U3). rewrite ES. cbn [obind map concat]. rewrite preorder_eq.
    destruct ts2 as [|s ts2].
    + exists st3. split; [|exact U3]. cbn [map concat]. rewrite app_nil_r. reflexivity.
    + assert (CH' : children_of t = (ts1 ++ [c]) ++ s :: ts2) by (rewrite CH, <- app_assoc; reflexivity).
      assert (LP : place c < place s). { assert (PS : forall p ts r, forest (params_of u) (u_startp u) D p (s :: ts) r -> place s = p) by (intros p0 ts0 r0 FF; inversion FF; reflexivity). rewrite (PS _ _ _ F1). lia. }
      destruct (IH t b (ts1 ++ [c]) s ts2 st3 L CH' U3 ltac:(lia)) as (st4 & W4 & U4). rewrite W4. cbn [obind]. exists st4. split; [reflexivity|exact U4].
Qed.
Lemma walk_root : forall n t b st, located t b -> place t + zlen b = u_endp u -> (forall s, In s (dl_attrs (decl_of t)) -> a_name s <> 1) -> uses dm base D st -> u_endp u - place t < Z.of_nat n ->
  exists st', walk n u dm st (place t) = Ok (preorder t, st') /\ uses dm base D st'.
Proof.
  intros [|k] t b st L EE NS U F; [destruct L as (_ & _ & _ & L); pose proof (zlen_nonneg _ b); lia|].
  destruct (child_walk k t b st (walk_children k) L U F) as (m & x' & st1 & st2 & E & W & U2). cbn [walk]. rewrite E. cbn [obind]. rewrite W. cbn [obind].
  destruct (proj2 (proj2 (sibling_inner t b t b [] st2 (Die (place t) Unknown) L U2 ltac:(split; [reflexivity|exact Logic.I]))) EE NS) as (st3 & ES & U3). rewrite ES. cbn [obind].
  exists st3. split; [rewrite preorder_eq; reflexivity|exact U3].
Qed.

(* Attributes. *)
Definition shows (sv : spec * value) (a : attr) : Prop :=
  a_code a = a_name (fst sv) /\ a_form a = a_fm (fst sv) /\
  if a_fm (fst sv) =? 33 then formsdata u a = Ok (match a_const (fst sv) with Some k => k | None => 0 end)
  else exists b, has_value u a (snd sv) b.
Lemma shows_die : forall s v p b, a_fm s <> 33 -> holds (params_of u) (a_fm s) v b -> at_ (u_mem u) p b -> p + zlen b <= u_endp u -> shows (s, v) (Attr (a_name s) (a_fm s) p []).
Proof.
  intros s v p b N HO A L. split; [reflexivity|]. split; [reflexivity|]. cbn [fst snd]. replace (a_fm s =? 33) with false by lia. exists b.
  split; [exact (uo_sizes _ _ _ _ UO)|]. split; [exact (uo_end _ _ _ _ UO)|]. split; [exact (uo_mem _ _ _ _ UO)|]. repeat (split; [assumption|]). assumption.
Qed.
Lemma shows_const : forall s v z e, a_fm s = 33 -> get_sleb128_unchecked dm z = Ok (match a_const s with Some k => k | None => 0 end, e) -> shows (s, v) (Attr (a_name s) 33 z dm).
Proof.
  intros s v z e F G. split; [reflexivity|]. cbn [fst snd a_form]. rewrite F. split; [reflexivity|]. cbn. rewrite G. reflexivity.
Qed.
Lemma attr_at : forall t b st x name, located t b -> uses dm base D st -> die_for dm D (place t) (decl_of t) x -> name <> INVALID ->
  exists r x' st', dwarf_attr u (Some dm) st x name = Ok (r, x', st') /\ uses dm base D st' /\ die_for dm D (place t) (decl_of t) x' /\
    match first_named name (attributes t) with None => r = None | Some sv => exists a, r = Some a /\ shows sv a end.
Proof.
  intros t b st x name (E & A & ST & L) U XF NI.
  destruct (entry_head t b E) as (p & d & vs & ch & c & vb & q & rest & -> & -> & I & C & V). cbn [place decl_of] in *. rewrite zlen_app in L. pose proof (zlen_nonneg _ rest).
  destruct (find_attr_at st x p q d vs c vb name U XF I C V (at_app1 _ _ _ _ A) ST ltac:(lia)) as (a & len & st' & O & U' & F). replace (name =? INVALID) with false in F by lia.
  assert (XF' : die_for dm D p d (Die p (Known a))) by (split; [reflexivity|exists q, len; split; assumption]).
  unfold dwarf_attr, first_named, attributes. cbn [decl_of values_of].
  destruct (find (fun sv => a_name (fst sv) =? name) (combine (dl_attrs d) vs)) as [[s v]|] eqn:FE.
  - apply find_some in FE as [FI FN]. cbn [fst] in FN. apply Z.eqb_eq in FN. subst name. destruct (a_fm s =? 33) eqn:E33.
    + destruct F as (z & e & G & F). rewrite F. cbn [obind]. rewrite Z.eqb_refl. eexists _, _, st'. split; [reflexivity|]. split; [exact U'|]. split; [exact XF'|].
      eexists. split; [reflexivity|]. apply (shows_const s v z e); [lia|exact G].
    + destruct F as (p' & b & HO & A' & S' & L' & F). rewrite F. cbn [obind]. rewrite Z.eqb_refl. eexists _, _, st'. split; [reflexivity|]. split; [exact U'|]. split; [exact XF'|].
      eexists. split; [reflexivity|]. apply (shows_die s v p' b); try assumption. lia.
  - rewrite F. cbn [obind]. replace (INVALID =? name) with false by lia. eexists None, _, st'. split; [reflexivity|]. split; [exact U'|]. split; [exact XF'|]. reflexivity.
Qed.
Lemma plain_at : forall t b st x, located t b -> uses dm base D st -> die_for dm D (place t) (decl_of t) x ->
  exists a r st' q len, dieabbrev u (Some dm) st x false = Ok (Some a, r, Die (place t) (Known a), st') /\ uses dm base D st' /\ die_for dm D (place t) (decl_of t) (Die (place t) (Known a)) /\
    In (q, decl_of t) D /\ offabbrev (Some dm) q = Ok (Got a len) /\ length (dl_attrs (decl_of t)) = length (values_of t).
Proof.
  intros t b st x (E & A & ST & L) U XF.
  destruct (entry_head t b E) as (p & d & vs & ch & c & vb & q & rest & -> & -> & I & C & V). cbn [place decl_of values_of] in *. rewrite !zlen_app in L. pose proof (zlen_nonneg _ rest). pose proof (zlen_nonneg _ vb).
  destruct (dieabbrev_at st x p q d c false U XF I C (at_app1 _ _ _ _ (at_app1 _ _ _ _ A)) ltac:(lia)) as (a & len & r & st' & DE & _ & O & U').
  exists a, r, st', q, len. split; [exact DE|]. split; [exact U'|]. split; [split; [reflexivity|exists q, len; split; assumption]|]. split; [exact I|]. split; [exact O|].
  clear - V. induction V; cbn; congruence.
Qed.

(* The attributes a callback is called with, and the value returned: 1 or the offset of the
   attribute where it stopped. *)
Fixpoint visit (cb : list attr -> attr -> bool) (seen : list attr) (l : list (Z * attr)) : list attr * gresult :=
  match l with
  | [] => (seen, Done)
  | (o, a) :: r => if cb seen a then visit cb (seen ++ [a]) r else (seen ++ [a], Resume o)
  end.
Fixpoint spaced (lo : Z) (l : list (Z * attr)) : Prop := match l with [] => True | (o, _) :: r => lo <= o /\ spaced (o + 2) r end.
Lemma spaced_le : forall l lo lo', spaced lo l -> lo' <= lo -> spaced lo' l.
Proof. intros [|[o a] l] lo lo' H L; [exact Logic.I|]. destruct H as [H1 H2]. split; [lia|exact H2]. Qed.
Lemma ga_vals : forall l vs vb, vals_bytes (params_of u) l vs vb -> forall l' ap e rp bs, toks dm ap l' e -> bs <= ap -> map triple l' = map striple l -> at_ (u_mem u) rp vb ->
  u_startp u <= rp -> rp + zlen vb <= u_endp u ->
  exists A, Forall2 (fun sv oa => shows sv (snd oa)) (combine l vs) A /\ spaced (ap - bs) A /\ (match A with [] => True | (o, _) :: _ => o = ap - bs end) /\
    forall cb off seen, ga_spec u dm cb bs off seen l' rp = Ok (visit cb seen (filter (fun oa => off <=? fst oa) A)).
Proof.
  intros l vs vb H. induction H as [|s v b l vs bs0 HO H IH]; intros l' ap e rp bs TK BS E A ST L; cbn [combine].
  - destruct l' as [|sl l']; [|discriminate]. exists []. split; [constructor|]. split; [exact Logic.I|]. split; [exact Logic.I|]. reflexivity.
  - destruct l' as [|sl l']; [discriminate|]. cbn [map] in E. assert (E0 : triple sl = striple s) by congruence. assert (E' : map triple l' = map striple l) by congruence. clear E.
    destruct (striple_form _ _ E0) as (EN & EF & ED). rewrite zlen_app in L. pose proof (zlen_nonneg _ bs0). pose proof (zlen_nonneg _ b).
    assert (TK' : exists q, toks dm q l' e /\ ap + 2 <= q /\ s_pos sl = ap /\ (s_form sl = 33 -> exists e', get_sleb128_unchecked dm (s_val sl) = Ok (s_data sl, e'))).
    { inversion TK as [|p0 n0 f0 q0 l0 e0 T NZ NF PQ TT X1 X2 X3|p0 n0 q0 d0 q1 l0 e0 T G PQ PQ' TT X1 X2 X3]; subst.
      - exists q0. split; [exact TT|]. split; [lia|]. split; [reflexivity|]. cbn. intro. congruence.
      - exists q1. split; [exact TT|]. split; [lia|]. split; [reflexivity|]. intros _. exists q1. exact G. }
    destruct TK' as (q & TT & LQ & SP & SC).
    destruct (IH l' q e (rp + zlen b) bs TT ltac:(lia) E' (at_app2 _ _ _ _ A) ltac:(lia) ltac:(lia)) as (AA & SH & SO & HD & GA).
    exists ((ap - bs, attr_of dm sl rp) :: AA). split; [constructor; [|exact SH]|].
    { cbn [snd]. unfold attr_of. rewrite EN, EF. destruct (Z.eq_dec (a_fm s) 33) as [F33|F33].
      - rewrite F33. cbn. destruct (SC ltac:(congruence)) as [e' G]. rewrite ED in G. apply (shows_const s v _ e' F33 G).
      - replace (a_fm s =? 33) with false by lia. apply (shows_die s v rp b F33 HO (at_app1 _ _ _ _ A)). lia. }
    split; [split; [lia|]; apply (spaced_le _ (q - bs)); [exact SO|lia]|]. split; [reflexivity|].
    intros cb off seen. cbn [ga_spec filter fst]. rewrite SP. replace (bs + off <=? ap) with (off <=? ap - bs) by lia.
    pose proof (holds_form _ _ _ _ HO) as NZ. replace (s_form sl =? 0) with false by lia. rewrite EF.
    pose proof (uo_end _ _ _ _ UO). pose proof (uo_mem _ _ _ _ UO). pose proof (uo_4g _ _ _ _ UO).
    rewrite (C34_size_partial u (a_fm s) v b rp (uo_sizes _ _ _ _ UO) ltac:(lia) HO (at_app1 _ _ _ _ A)) by lia.
    destruct (off <=? ap - bs) eqn:EV; cbn [andb].
    + cbn [visit]. destruct (cb seen (attr_of dm sl rp)); cbn [negb]; [apply GA|reflexivity].
    + apply GA.
Qed.
Lemma spaced_filter : forall l lo o, spaced lo l -> o <= lo -> filter (fun oa => o <=? fst oa) l = l.
Proof.
  induction l as [|[o' a] l IH]; intros lo o H L; [reflexivity|]. destruct H as [H1 H2]. cbn [filter fst]. replace (o <=? o') with true by lia. f_equal. apply (IH (o' + 2)); [exact H2|lia].
Qed.
Lemma spaced_split : forall before lo o a after, spaced lo (before ++ (o, a) :: after) -> lo <= o /\ (before <> [] -> lo + 2 <= o) /\ filter (fun oa => o <=? fst oa) (before ++ (o, a) :: after) = (o, a) :: after.
Proof.
  induction before as [|[o' a'] before IH]; intros lo o a after H; cbn [app] in *; destruct H as [H1 H2].
  - split; [exact H1|]. split; [congruence|]. cbn [filter fst]. rewrite Z.leb_refl. f_equal. apply (spaced_filter _ (o + 2)); [exact H2|lia].
  - destruct (IH _ _ _ _ H2) as (L & _ & F). split; [lia|]. split; [intros _; lia|]. cbn [filter fst]. replace (o <=? o') with false by lia. exact F.
Qed.
Lemma getattrs_at : forall t b, located t b ->
  exists A, Forall2 (fun sv oa => shows sv (snd oa)) (attributes t) A /\ spaced 0 A /\ (match A with [] => True | (o, _) :: _ => o = 0 end) /\
    forall st x cb off, uses dm base D st -> die_for dm D (place t) (decl_of t) x -> off <> 1 ->
      exists x' st', dwarf_getattrs u (Some dm) st x cb off = Ok (visit cb [] (filter (fun oa => off <=? fst oa) A), x', st') /\ uses dm base D st' /\ die_for dm D (place t) (decl_of t) x'.
Proof.
  intros t b (E & A & ST & L).
  destruct (entry_head t b E) as (p & d & vs & ch & c & vb & q & rest & -> & -> & I & C & V). cbn [place decl_of] in *. unfold attributes. cbn [decl_of values_of]. rewrite !zlen_app in L. pose proof (zlen_nonneg _ rest). pose proof (zlen_nonneg _ vb). pose proof (zlen_nonneg _ c).
  destruct (dieabbrev_at (Acache [] (Some base)) (Die p Unknown) p q d c true (U_start _ _ _) ltac:(split; [reflexivity|exact Logic.I]) I C (at_app1 _ _ _ _ (at_app1 _ _ _ _ A)) ltac:(lia)) as (a & len & r & st' & DE & _ & O & U').
  destruct (ab_facts q d a len I O) as (_ & _ & l' & e & TK & ME & FU).
  destruct (ga_vals _ _ _ V l' (ab_attrp a) e (p + zlen c) (ab_attrp a) TK ltac:(lia) ME (at_app2 _ _ _ _ (at_app1 _ _ _ _ A)) ltac:(lia) ltac:(lia)) as (AA & SH & SO & HD & GA).
  rewrite Z.sub_diag in SO, HD. exists AA. split; [exact SH|]. split; [exact SO|]. split; [exact HD|].
  intros st x cb off U XF N1. unfold dwarf_getattrs. replace (off =? 1) with false by lia.
  destruct (dieabbrev_at st x p q d c true U XF I C (at_app1 _ _ _ _ (at_app1 _ _ _ _ A)) ltac:(lia)) as (a2 & len2 & r2 & st2 & DE2 & R2 & O2 & U2). specialize (R2 eq_refl). subst r2.
  rewrite DE2. cbn [obind]. assert (a2 = a) as -> by congruence. rewrite (ga_walk_toks _ _ _ _ TK) by exact FU. rewrite GA. cbn [obind].
  destruct (visit cb [] (filter (fun oa => off <=? fst oa) AA)) as [vl vg]. exists (Die p (Known a)), st2. split; [reflexivity|]. split; [exact U2|]. split; [reflexivity|]. exists q, len. split; assumption.
Qed.
End Die.

(* C51: whatever the tree and whatever was looked up before, dwarf_child moves to the first
   child or says that there is none, from every entry of the tree. *)
Theorem C51_child : forall u dm base D root b t st x, unit_ok u dm base D -> located u D root b -> subtree t root ->
  uses dm base D st -> die_for dm D (place t) (decl_of t) x ->
  exists x' st', dwarf_child u (Some dm) st x = Ok (match children_of t with [] => NoMore | c :: _ => MovedTo (place c) end, x', st') /\
    uses dm base D st' /\ die_for dm D (place t) (decl_of t) x'.
Proof. intros u dm base D root b t st x UO L SB U XF. destruct (located_sub u base D t root SB b L) as (b' & L'). exact (child_at u dm base D UO t b' st x L' U XF). Qed.
Print Assumptions C51_child.

(* dwarf_siblingof moves from every child to the next one or says that it was the last. *)
Theorem C51_sibling : forall u dm base D root b t before c after st x, unit_ok u dm base D -> located u D root b -> subtree t root -> children_of t = before ++ c :: after ->
  uses dm base D st -> die_for dm D (place c) (decl_of c) x ->
  exists st', dwarf_siblingof u (Some dm) st x = Ok (match after with [] => NoMore | s :: _ => MovedTo (place s) end, st') /\ uses dm base D st'.
Proof. intros u dm base D root b t before c after st x UO L SB CH U XF. destruct (located_sub u base D t root SB b L) as (b' & L'). exact (sibling_at u dm base D UO t b' before c after st x L' CH U XF). Qed.
Print Assumptions C51_sibling.

(* A walk of the whole unit by the two visits every entry once, in order, provided that the
   first entry ends with the unit and has no DW_AT_sibling. *)
Theorem C51_walk_partial : forall u dm base D root b st n, unit_ok u dm base D -> located u D root b -> place root + zlen b = u_endp u ->
  (forall s, In s (dl_attrs (decl_of root)) -> a_name s <> 1) -> uses dm base D st -> (length (u_mem u) < n)%nat ->
  exists st', walk n u dm st (place root) = Ok (preorder root, st') /\ uses dm base D st'.
Proof.
  intros u dm base D root b st n UO L EE NS U F. apply (walk_root u dm base D UO n root b st L EE NS U).
  pose proof (uo_end _ _ _ _ UO) as UE. pose proof (uo_start _ _ _ _ UO) as US. destruct L as (_ & _ & L & _). unfold zlen in *. lia.
Qed.
Print Assumptions C51_walk_partial.

(* C52: dwarf_attr finds the first attribute of the name, with its value, or none.  The name
   0xffffe444 is excluded. *)
Theorem C52_attr_partial : forall u dm base D root b t st x name, unit_ok u dm base D -> located u D root b -> subtree t root ->
  uses dm base D st -> die_for dm D (place t) (decl_of t) x -> name <> 4294960196 ->
  exists r x' st', dwarf_attr u (Some dm) st x name = Ok (r, x', st') /\ uses dm base D st' /\ die_for dm D (place t) (decl_of t) x' /\
    match first_named name (attributes t) with None => r = None | Some sv => exists a, r = Some a /\ shows u sv a end.
Proof. intros u dm base D root b t st x name UO L SB U XF NI. destruct (located_sub u base D t root SB b L) as (b' & L'). exact (attr_at u dm base D UO t b' st x name L' U XF NI). Qed.
Print Assumptions C52_attr_partial.

(* dwarf_hasattr, dwarf_tag and dwarf_haschildren answer as the declaration says. *)
Theorem C52_hasattr : forall u dm base D root b t st x name, unit_ok u dm base D -> located u D root b -> subtree t root ->
  uses dm base D st -> die_for dm D (place t) (decl_of t) x ->
  exists x' st', dwarf_hasattr u (Some dm) st x name = Ok (match first_named name (attributes t) with None => false | Some _ => true end, x', st') /\ uses dm base D st' /\ die_for dm D (place t) (decl_of t) x'.
Proof.
  intros u dm base D root b t st x name UO L SB U XF. destruct (located_sub u base D t root SB b L) as (b' & L').
  destruct (plain_at u dm base D UO t b' st x L' U XF) as (a & r & st' & q & len & DE & U' & XF' & I & O & LE). unfold dwarf_hasattr. rewrite DE. cbn [obind].
  destruct (ab_facts u dm base D UO q (decl_of t) a len I O) as (_ & _ & l' & e & TK & ME & FU). unfold hasattr. rewrite (has_walk_toks _ _ _ _ TK) by exact FU. cbn [obind].
  exists (Die (place t) (Known a)), st'. split; [|split; assumption]. do 3 f_equal. unfold first_named, attributes. revert ME LE. generalize (values_of t). clear. generalize (dl_attrs (decl_of t)).
  induction l' as [|sl l' IH]; intros [|s l] [|v vs] ME LE; cbn [map] in ME; try discriminate; [reflexivity|].
  assert (E0 : triple sl = striple s) by congruence. destruct (striple_form _ _ E0) as (EN & _). cbn [existsb combine find fst]. rewrite EN. destruct (a_name s =? name); [reflexivity|]. cbn [orb]. apply IH; [congruence|cbn in LE; congruence].
Qed.
Print Assumptions C52_hasattr.
Theorem C52_tag : forall u dm base D root b t st x, unit_ok u dm base D -> located u D root b -> subtree t root ->
  uses dm base D st -> die_for dm D (place t) (decl_of t) x ->
  (exists x' st', dwarf_tag u (Some dm) st x = Ok (Some (dl_tag (decl_of t)), x', st') /\ uses dm base D st' /\ die_for dm D (place t) (decl_of t) x') /\
  (exists x' st', dwarf_haschildren u (Some dm) st x = Ok (Some (dl_children (decl_of t)), x', st') /\ uses dm base D st' /\ die_for dm D (place t) (decl_of t) x').
Proof.
  intros u dm base D root b t st x UO L SB U XF. destruct (located_sub u base D t root SB b L) as (b' & L').
  destruct (plain_at u dm base D UO t b' st x L' U XF) as (a & r & st' & q & len & DE & U' & XF' & I & O & LE). unfold dwarf_tag, dwarf_haschildren. rewrite DE. cbn [obind option_map].
  destruct (ab_facts u dm base D UO q (decl_of t) a len I O) as (EC & ET & _). rewrite EC, ET. split; exists (Die (place t) (Known a)), st'; (split; [reflexivity|split; assumption]).
Qed.
Print Assumptions C52_tag.

(* dwarf_getattrs calls the callback with every attribute in order until it refuses one, and
   returns the place of that one; started again with that place, or at 0, it goes on from there. *)
Theorem C52_getattrs : forall u dm base D root b t, unit_ok u dm base D -> located u D root b -> subtree t root ->
  exists A, Forall2 (fun sv oa => shows u sv (snd oa)) (attributes t) A /\
    forall st x cb, uses dm base D st -> die_for dm D (place t) (decl_of t) x ->
      (exists x' st', dwarf_getattrs u (Some dm) st x cb 0 = Ok (visit cb [] A, x', st') /\ uses dm base D st' /\ die_for dm D (place t) (decl_of t) x') /\
      (forall before o a after, A = before ++ (o, a) :: after ->
        exists x' st', dwarf_getattrs u (Some dm) st x cb o = Ok (visit cb [] ((o, a) :: after), x', st') /\ uses dm base D st' /\ die_for dm D (place t) (decl_of t) x') /\
      dwarf_getattrs u (Some dm) st x cb 1 = Ok ([], Done, x, st).
Proof.
  intros u dm base D root b t UO L SB. destruct (located_sub u base D t root SB b L) as (b' & L'). destruct (getattrs_at u dm base D UO t b' L') as (A & SH & SO & HD & G).
  exists A. split; [exact SH|]. intros st x cb U XF. split; [|split; [|reflexivity]].
  - destruct (G st x cb 0 U XF ltac:(lia)) as (x' & st' & E & R). exists x', st'. split; [|exact R]. rewrite E, (spaced_filter _ 0) by (exact SO || lia). reflexivity.
  - intros before o a after ->. destruct (spaced_split _ _ _ _ _ SO) as (LO & LB & F). assert (N1 : o <> 1).
    { destruct before as [|b0 before]; [cbn in HD; lia|]. specialize (LB ltac:(discriminate)). lia. }
    destruct (G st x cb o U XF N1) as (x' & st' & E & R). exists x', st'. split; [|exact R]. rewrite E, F. reflexivity.
Qed.
Print Assumptions C52_getattrs.

(* A unit with a node below the first entry, a sibling attribute and a constant kept in the
   abbreviation table meets the hypotheses of the theorems; the walk is computed as well. *)
Definition ex_d1 := Decl 1 17 true [Spec 3 8 None].
Definition ex_d2 := Decl 2 46 false [Spec 28 33 (Some (-5)); Spec 3 8 None].
Definition ex_d3 := Decl 3 11 true [Spec 1 17 None; Spec 58 11 None].
Definition ex_dm : bytes := [1; 17; 1; 3; 8; 0; 0; 2; 46; 0; 28; 33; 123; 3; 8; 0; 0; 3; 11; 1; 1; 17; 58; 11; 0; 0; 0].
Definition ex_D := [(0, ex_d1); (7, ex_d2); (17, ex_d3)].
Definition ex_mem : bytes := [0; 0; 0; 0; 0; 0; 0; 0; 0; 0; 0; 1; 97; 0; 3; 21; 7; 2; 98; 0; 0; 2; 99; 0; 0; 7; 7].
Definition ex_unit := Cu ex_mem 0 25 8 4 4 true.
Definition ex_inner := Node 14 ex_d3 [Unsigned 21; Unsigned 7] [Node 17 ex_d2 [Present; Text [98]] []].
Definition ex_tree := Node 11 ex_d1 [Text [97]] [ex_inner; Node 21 ex_d2 [Present; Text [99]] []].
Lemma leb1 : forall v, 0 <= v < 128 -> u32_leb v [v].
Proof. intros v V. split; [|lia]. split; [cbn; lia|]. split; [vm_compute; discriminate|]. split; [|lia]. cbn [uleb_value]. rewrite Z.mod_small by lia. lia. Qed.
Ltac at_tac := split; [vm_compute; discriminate|split; [vm_compute; discriminate|vm_compute; reflexivity]].
Lemma ex_ok : unit_ok ex_unit ex_dm 0 ex_D.
Proof.
  assert (NIL : attrs_bytes [] [0; 0]) by (apply (A_nil [0] [0]); apply leb1; lia).
  apply UnitOk; [|vm_compute; discriminate|vm_compute; discriminate|reflexivity|reflexivity| | | |reflexivity].
  - split; [right; reflexivity|left; reflexivity].
  - apply (Tab_decl ex_dm 0 ex_d1 [1; 17; 1; 3; 8; 0; 0]); [|at_tac|].
    { exists [1], [17], [3; 8; 0; 0]. split; [reflexivity|]. split; [apply leb1; cbn; lia|]. split; [reflexivity|]. split; [apply leb1; cbn; lia|]. apply (A_plain 3 8 _ [3] [8]); [apply leb1; lia|apply leb1; lia|lia|lia|exact NIL]. }
    apply (Tab_decl ex_dm 7 ex_d2 [2; 46; 0; 28; 33; 123; 3; 8; 0; 0]); [|at_tac|].
    { exists [2], [46], [28; 33; 123; 3; 8; 0; 0]. split; [reflexivity|]. split; [apply leb1; cbn; lia|]. split; [reflexivity|]. split; [apply leb1; cbn; lia|].
      apply (A_const 28 (-5) _ [28] [33] [123]); [apply leb1; lia|apply leb1; lia|split; [cbn; lia|split; [vm_compute; discriminate|vm_compute; reflexivity]]|]. apply (A_plain 3 8 _ [3] [8]); [apply leb1; lia|apply leb1; lia|lia|lia|exact NIL]. }
    apply (Tab_decl ex_dm 17 ex_d3 [3; 11; 1; 1; 17; 58; 11; 0; 0]); [|at_tac|].
    { exists [3], [11], [1; 17; 58; 11; 0; 0]. split; [reflexivity|]. split; [apply leb1; cbn; lia|]. split; [reflexivity|]. split; [apply leb1; cbn; lia|].
      apply (A_plain 1 17 _ [1] [17]); [apply leb1; lia|apply leb1; lia|lia|lia|]. apply (A_plain 58 11 _ [58] [11]); [apply leb1; lia|apply leb1; lia|lia|lia|exact NIL]. }
    apply Tab_end. at_tac.
  - cbn. repeat constructor; cbn; intuition discriminate.
  - repeat constructor.
Qed.
Lemma ex_text : forall m c, c <> 0 -> holds m 8 (Text [c]) [c; 0].
Proof. intros m c N. apply (H_string m [c]). constructor; [exact N|constructor]. Qed.
Lemma ex_located : located ex_unit ex_D ex_tree [1; 97; 0; 3; 21; 7; 2; 98; 0; 0; 2; 99; 0; 0].
Proof.
  split; [|split; [at_tac|split; vm_compute; discriminate]].
  assert (LEAF : forall p c, c <> 0 -> entry (params_of ex_unit) 0 ex_D (Node p ex_d2 [Present; Text [c]] []) [2; c; 0]).
  { intros p c N. apply (E_leaf _ _ _ p 7 ex_d2 [Present; Text [c]] [2] [c; 0]); [cbn; tauto|reflexivity|apply leb1; cbn; lia| |].
    - apply (V_cons _ (Spec 28 33 (Some (-5))) Present [] _ [Text [c]] [c; 0]); [apply H_implicit|]. apply (V_cons _ (Spec 3 8 None) (Text [c]) [c; 0] [] [] []); [apply ex_text, N|constructor].
    - repeat constructor; cbn; discriminate. }
  apply (E_node _ _ _ 11 0 ex_d1 [Text [97]] _ [1] [97; 0] [3; 21; 7; 2; 98; 0; 0; 2; 99; 0]); [cbn; tauto|reflexivity|apply leb1; cbn; lia| | |].
  - apply (V_cons _ (Spec 3 8 None) (Text [97]) [97; 0] [] [] []); [apply ex_text; lia|constructor].
  - repeat constructor; cbn; discriminate.
  - apply (F_cons _ _ _ ex_inner [3; 21; 7; 2; 98; 0; 0] [Node 21 ex_d2 [Present; Text [99]] []] [2; 99; 0]).
    + apply (E_node _ _ _ 14 17 ex_d3 [Unsigned 21; Unsigned 7] _ [3] [21; 7] [2; 98; 0]); [cbn; tauto|reflexivity|apply leb1; cbn; lia| | |].
      * apply (V_cons _ (Spec 1 17 None) (Unsigned 21) [21] _ [Unsigned 7] [7]).
        { apply (H_fixed (Params true 8 4 4) 17 1 21); [cbn; tauto|lia]. }
        apply (V_cons _ (Spec 58 11 None) (Unsigned 7) [7] [] [] []); [apply (H_fixed (Params true 8 4 4) 11 1 7); [cbn; tauto|lia]|constructor].
      * constructor; [intros _; split; [cbn; tauto|reflexivity]|]. repeat constructor; cbn; discriminate.
      * apply (F_cons _ _ _ (Node 17 ex_d2 [Present; Text [98]] []) [2; 98; 0] [] []); [apply LEAF; lia|constructor].
    + apply (F_cons _ _ _ (Node 21 ex_d2 [Present; Text [99]] []) [2; 99; 0] [] []); [apply LEAF; lia|constructor].
Qed.
Example C51_nonvacuous : unit_ok ex_unit ex_dm 0 ex_D /\ located ex_unit ex_D ex_tree [1; 97; 0; 3; 21; 7; 2; 98; 0; 0; 2; 99; 0; 0] /\
  place ex_tree + 14 = u_endp ex_unit /\ subtree ex_inner ex_tree /\ uses ex_dm 0 ex_D (Acache [] (Some 0)) /\ preorder ex_tree = [11; 14; 17; 21] /\
  exists st, walk 28 ex_unit ex_dm (Acache [] (Some 0)) 11 = Ok ([11; 14; 17; 21], st).
Proof.
  split; [exact ex_ok|]. split; [exact ex_located|]. split; [reflexivity|]. split; [apply (Sub_child _ ex_inner); [left; reflexivity|apply Sub_self]|]. split; [apply U_start|]. split; [reflexivity|].
  eexists. vm_compute. reflexivity.
Qed.
Example C52_nonvacuous : subtree (Node 17 ex_d2 [Present; Text [98]] []) ex_tree /\
  first_named 28 (attributes (Node 17 ex_d2 [Present; Text [98]] [])) = Some (Spec 28 33 (Some (-5)), Present) /\
  match dwarf_attr ex_unit (Some ex_dm) (Acache [] (Some 0)) (Die 17 Unknown) 28 with Ok (Some a, _, _) => formsdata ex_unit a = Ok (-5) | _ => False end /\
  match dwarf_getattrs ex_unit (Some ex_dm) (Acache [] (Some 0)) (Die 17 Unknown) (fun seen _ => match seen with [] => true | _ => false end) 0 with
  | Ok (l, g, _, _) => l = [Attr 28 33 12 ex_dm; Attr 3 8 18 []] /\ g = Resume 3 | _ => False end.
Proof.
  split; [apply (Sub_child _ ex_inner); [left; reflexivity|]; apply (Sub_child _ (Node 17 ex_d2 [Present; Text [98]] [])); [left; reflexivity|apply Sub_self]|]. split; [reflexivity|]. split.
  - vm_compute. reflexivity.
  - vm_compute. split; reflexivity.
Qed.

(* The name 0xffffe444 is found in every entry, although no entry has it. *)
Theorem C52_attr_refuted : exists u dm base D root b t st x name, unit_ok u dm base D /\ located u D root b /\ subtree t root /\ uses dm base D st /\ die_for dm D (place t) (decl_of t) x /\
  first_named name (attributes t) = None /\ exists a x' st', dwarf_attr u (Some dm) st x name = Ok (Some a, x', st').
Proof.
  exists ex_unit, ex_dm, 0, ex_D, ex_tree, [1; 97; 0; 3; 21; 7; 2; 98; 0; 0; 2; 99; 0; 0], ex_tree, (Acache [] (Some 0)), (Die 11 Unknown), 4294960196.
  split; [exact ex_ok|]. split; [exact ex_located|]. split; [apply Sub_self|]. split; [apply U_start|]. split; [split; [reflexivity|exact Logic.I]|]. split; [reflexivity|]. eexists _, _, _. vm_compute. reflexivity.
Qed.
Print Assumptions C52_attr_refuted.

(* If the first entry has a DW_AT_sibling that refers to the end of the unit, as sibling_ok
   requires, dwarf_siblingof fails instead of reporting that there is no sibling, and so does the walk. *)
Definition rf_dm : bytes := [1; 17; 0; 1; 17; 0; 0; 0].
Definition rf_d := Decl 1 17 false [Spec 1 17 None].
Definition rf_mem : bytes := [0; 0; 0; 0; 0; 0; 0; 0; 0; 0; 0; 1; 13].
Definition rf_unit := Cu rf_mem 0 13 8 4 4 true.
Definition rf_tree := Node 11 rf_d [Unsigned 13] [].
(* A DW_AT_sibling which points to the end of the unit makes dwarf_siblingof fail instead of reporting that there is no sibling. *)
Theorem C51_walk_refuted : exists u dm base D root b st, unit_ok u dm base D /\ located u D root b /\ place root + zlen b = u_endp u /\ uses dm base D st /\
  (exists st', dwarf_siblingof u (Some dm) st (Die (place root) Unknown) = Ok (Failed, st')) /\ forall n l st', walk n u dm st (place root) <> Ok (l, st').
Proof.
  exists rf_unit, rf_dm, 0, [(0, rf_d)], rf_tree, [1; 13], (Acache [] (Some 0)).
  assert (NIL : attrs_bytes [] [0; 0]) by (apply (A_nil [0] [0]); apply leb1; lia).
  split.
  { apply UnitOk; [|vm_compute; discriminate|vm_compute; discriminate|reflexivity|reflexivity| | | |reflexivity].
    - split; [right; reflexivity|left; reflexivity].
    - apply (Tab_decl rf_dm 0 rf_d [1; 17; 0; 1; 17; 0; 0]); [|at_tac|].
      { exists [1], [17], [1; 17; 0; 0]. split; [reflexivity|]. split; [apply leb1; cbn; lia|]. split; [reflexivity|]. split; [apply leb1; cbn; lia|]. apply (A_plain 1 17 _ [1] [17]); [apply leb1; lia|apply leb1; lia|lia|lia|exact NIL]. }
      apply Tab_end. at_tac.
    - cbn. repeat constructor; cbn; intuition discriminate.
    - repeat constructor. }
  split.
  { split; [|split; [at_tac|split; vm_compute; discriminate]]. apply (E_leaf _ _ _ 11 0 rf_d [Unsigned 13] [1] [13]); [cbn; tauto|reflexivity|apply leb1; cbn; lia| |].
    - apply (V_cons _ (Spec 1 17 None) (Unsigned 13) [13] [] [] []); [apply (H_fixed (Params true 8 4 4) 17 1 13); [cbn; tauto|lia]|constructor].
    - constructor; [intros _; split; [cbn; tauto|reflexivity]|constructor]. }
  split; [reflexivity|]. split; [apply U_start|]. split; [eexists; vm_compute; reflexivity|].
  intros [|n] l st' H; [discriminate|]. vm_compute in H. discriminate.
Qed.
Print Assumptions C51_walk_refuted.
