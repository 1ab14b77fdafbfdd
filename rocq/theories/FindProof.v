(* Lemmas about the search for separate debug files. *)
From Verif Require Import Base CrcModel FindModel FindSpec.

Lemma beq_ok : forall a b, beq a b = true <-> a = b.
Proof. intros a b. unfold beq. destruct (list_eq_dec Z.eq_dec a b); split; congruence. Qed.
Lemma has_ok : forall f id, has_id f id = true <-> f_id f = Some id.
Proof. intros f id. unfold has_id. destruct (f_id f) as [i|]; [rewrite beq_ok; split; congruence|split; discriminate]. Qed.
Lemma after_spec : forall s, match after_slash s with
  | None => tails s = [None]
  | Some [] => tails s = []
  | Some r => tails s = Some r :: tails r /\ (length r < length s)%nat
  end.
Proof.
  induction s as [|c s IH]; cbn [after_slash tails]; [reflexivity|]. destruct (c =? SLASH) eqn:E.
  - destruct s as [|d s]; [reflexivity|]. split; [reflexivity|cbn; lia].
  - destruct (after_slash s) as [[|x r]|]; auto. destruct IH as (-> & L). split; [reflexivity|cbn [length] in *; lia].
Qed.
Lemma validate_ok : forall m n f check crc ev ok fd, validate m n f check crc = (ev, ok, fd) -> (ok = true <-> right m f check crc).
Proof.
  intros m n f check crc ev ok fd E. unfold validate, right, by_id in *. destruct (m_dw m) as [[id|]|].
  - destruct (f_kind f) eqn:K; [injection E as <- <- <-; split; [discriminate|intros (X & _); congruence]| |];
      (destruct (has_id f id) eqn:H; injection E as <- <- <-; [apply has_ok in H; split; [intros _; split; [discriminate|exact H]|reflexivity]|split; [discriminate|intros (_ & X); apply has_ok in X; congruence]]).
  - injection E as <- <- <-. split; [discriminate|intros []].
  - destruct (m_id m) as [id|].
    + destruct (f_kind f) eqn:K; [injection E as <- <- <-; split; [discriminate|intros (X & _); congruence]| |];
      (destruct (has_id f id) eqn:H; injection E as <- <- <-; [apply has_ok in H; split; [intros _; split; [discriminate|exact H]|reflexivity]|split; [discriminate|intros (_ & X); apply has_ok in X; congruence]]).
    + injection E as <- <- <-. destruct check; cbn [negb orb].
      * destruct (f_crc f) as [c|]; [rewrite Z.eqb_eq; split; [intros ->; reflexivity|intros X; specialize (X eq_refl); congruence]|split; [discriminate|intros X; specialize (X eq_refl); discriminate]].
      * split; [discriminate|reflexivity].
Qed.
Definition step_end (s : step) : option ending := match s with Next => None | Stop e => Some (SNone e) | Done n f _ => Some (SFile n f) end.
Lemma accept_ok : forall fs m check crc ev n f g gs, look fs ENOENT g = inr (n, f) -> walk fs m check crc (g :: gs) (step_end (snd (accept m check crc ev n f))).
Proof.
  intros fs m check crc ev n f g gs L. unfold accept. destruct (validate m n f check crc) as [[ev' ok] fd] eqn:V. apply validate_ok in V. destruct ok; cbn [snd step_end].
  - apply WRight; [exact L|apply V; reflexivity].
  - eapply WWrong; [exact L|]. intros R. apply V in R. discriminate.
Qed.
(* one file, or one and the other *)
Lemma try_look : forall fs dir sub link, snd (try_open fs dir sub link) = look fs ENOENT [join dir sub link].
Proof. intros fs dir sub link. unfold try_open. cbn [look]. destruct (fs (join dir sub link)) as [e|f]; [reflexivity|]. destruct (f_main f); reflexivity. Qed.
Lemma try_look2 : forall fs dir sub link base (tb : bool), exists ev,
  (let '(ev, r) := try_open fs dir sub link in
   match r with inl _ => if tb then let '(ev', r') := try_open fs dir sub base in (ev ++ ev', r') else (ev, r) | inr _ => (ev, r) end)
  = (ev, look fs ENOENT (names link tb base dir sub)).
Proof.
  intros fs dir sub link base tb. pose proof (try_look fs dir sub link) as H. pose proof (try_look fs dir sub base) as H'. destruct (try_open fs dir sub link) as [ev r]. destruct (try_open fs dir sub base) as [ev' r']. cbn [snd] in *. subst r r'. unfold names. cbn [look].
  destruct (fs (join dir sub link)) as [e|f].
  - destruct tb; [|exists ev; reflexivity]. exists (ev ++ ev'). cbn [look]. destruct (fs (join dir sub base)) as [e'|f']; reflexivity.
  - destruct (f_main f); [|exists ev; reflexivity]. destruct tb; [|exists ev; reflexivity]. exists (ev ++ ev'). reflexivity.
Qed.
Lemma absent_ok : forall e, absent e = true <-> e = ENOENT \/ e = ENOTDIR.
Proof. intros e. unfold absent. rewrite orb_true_iff, !Z.eqb_eq. reflexivity. Qed.
Lemma absent_no : forall e, absent e = false -> e <> ENOENT /\ e <> ENOTDIR.
Proof. intros e H. split; intros ->; discriminate H. Qed.

Lemma attempt_no : forall fuel fs m link linknull base check crc special dir sub file tb, m_dw m = None -> (match sub with Some s => S (length s) | None => 0 end < fuel)%nat ->
  exists ev s, attempt fuel fs m link linknull base check crc special dir sub file tb = Ok (ev, s) /\
    walk fs m check crc (names file tb base dir sub :: match sub with None => [] | Some s => map (names link linknull base dir) (tails s) end) (step_end s).
Proof.
  induction fuel as [|fuel IH]; intros fs m link linknull base check crc special dir sub file tb DW FU; [lia|]. cbn [attempt]. destruct (try_look2 fs dir sub file base tb) as (ev & E). destruct (try_open fs dir sub file) as [ev0 r0]. rewrite E. destruct (look fs ENOENT (names file tb base dir sub)) as [e|(n & f)] eqn:L.
  - destruct (absent e) eqn:A; [|apply absent_no in A; do 2 eexists; split; [reflexivity|apply WError; [exact L|apply A|apply A]]]. apply absent_ok in A. rewrite DW. cbn [is_some andb]. destruct sub as [s|]; [|do 2 eexists; split; [reflexivity|]; eapply WSkip; [exact L|exact A|constructor]].
    pose proof (after_spec s) as T. destruct (after_slash s) as [[|x r]|].
    + do 2 eexists. split; [reflexivity|]. eapply WSkip; [exact L|exact A|]. rewrite T. constructor.
    + destruct T as (T & LT). destruct (IH fs m link linknull base check crc special dir (Some (x :: r)) link linknull DW ltac:(cbn [length] in *; lia)) as (ev' & s' & E' & W). match goal with |- context [attempt fuel ?a ?b ?c ?d ?e ?f ?g ?h ?i ?j ?k ?l] => replace (attempt fuel a b c d e f g h i j k l) with (@Ok (list event * step) (ev', s')) by (symmetry; exact E') end. cbn [obind]. do 2 eexists. split; [reflexivity|]. eapply WSkip; [exact L|exact A|]. rewrite T. exact W.
    + destruct (IH fs m link linknull base check crc special dir None link linknull DW ltac:(cbv iota in *; lia)) as (ev' & s' & E' & W). match goal with |- context [attempt fuel ?a ?b ?c ?d ?e ?f ?g ?h ?i ?j ?k ?l] => replace (attempt fuel a b c d e f g h i j k l) with (@Ok (list event * step) (ev', s')) by (symmetry; exact E') end. cbn [obind]. do 2 eexists. split; [reflexivity|]. eapply WSkip; [exact L|exact A|]. rewrite T. exact W.
  - do 2 eexists. split; [rewrite <- surjective_pairing; reflexivity|]. apply accept_ok. exact L.
Qed.
Lemma attempt_dw : forall fuel fs m link linknull base check crc special dir sub file tb, m_dw m <> None -> (0 < fuel)%nat ->
  exists ev s, attempt fuel fs m link linknull base check crc special dir sub file tb = Ok (ev, s) /\
    walk fs m check crc (names file tb base dir sub :: if special then [[join dir (Some dwz) (base_of file)]] else []) (step_end s).
Proof.
  intros [|fuel] fs m link linknull base check crc special dir sub file tb DW FU; [lia|]. cbn [attempt]. destruct (try_look2 fs dir sub file base tb) as (ev & E). destruct (try_open fs dir sub file) as [ev0 r0]. rewrite E. destruct (look fs ENOENT (names file tb base dir sub)) as [e|(n & f)] eqn:L.
  - destruct (absent e) eqn:A; [|apply absent_no in A; do 2 eexists; split; [reflexivity|apply WError; [exact L|apply A|apply A]]]. apply absent_ok in A. destruct (m_dw m) as [alt|]; [|congruence]. cbn [is_some andb]. destruct special.
    + pose proof (try_look fs dir (Some dwz) (base_of file)) as L2. destruct (try_open fs dir (Some dwz) (base_of file)) as [ev2 r2]. cbn [snd] in L2. destruct r2 as [e2|(n & f)].
      * do 2 eexists. split; [reflexivity|]. eapply WSkip; [exact L|exact A|]. destruct (absent e2) eqn:A2; cbn [step_end]; [apply absent_ok in A2; eapply WSkip; [symmetry; exact L2|exact A2|constructor]|apply absent_no in A2; apply WError; [symmetry; exact L2|apply A2|apply A2]].
      * do 2 eexists. split; [rewrite <- surjective_pairing; reflexivity|]. eapply WSkip; [exact L|exact A|]. apply accept_ok. symmetry. exact L2.
    + do 2 eexists. split; [reflexivity|]. eapply WSkip; [exact L|exact A|constructor].
  - do 2 eexists. split; [rewrite <- surjective_pairing; reflexivity|]. apply accept_ok. exact L.
Qed.
Lemma element_ok : forall fs m dirname link linknull base def can crc p,
  exists ev s, element fs m dirname link linknull base def can crc p = Ok (ev, s) /\
    walk fs m (fst (signed def p) && can) crc (groups (is_some (m_dw m)) dirname link linknull base (snd (signed def p))) (step_end s).
Proof.
  intros fs m dirname link linknull base def can crc p. unfold element. change (match p with | [] => (def, p) | c :: r => if (c =? PLUS) || (c =? MINUS) then (c =? PLUS, r) else (def, p) end) with (signed def p). destruct (signed def p) as [check q]. cbn [fst snd]. cbv zeta. unfold groups. destruct (m_dw m) as [alt|] eqn:DW; cbn [is_some].
  - assert (ND : m_dw m <> None) by congruence. destruct q as [|c q].
    + apply attempt_dw; [exact ND|lia].
    + destruct (c =? SLASH).
      * apply attempt_dw; [exact ND|lia].
      * apply attempt_dw; [exact ND|lia].
  - destruct q as [|c q].
    + apply (attempt_no 1 fs m link linknull base (check && can) crc true dirname None link false DW). lia.
    + destruct (c =? SLASH).
      * destruct dirname as [[|d dn]|]; [do 2 eexists; split; [reflexivity|constructor]| |do 2 eexists; split; [reflexivity|constructor]]. destruct (d =? SLASH); [|do 2 eexists; split; [reflexivity|constructor]]. pose proof (after_spec (d :: dn)) as T. destruct (after_slash (d :: dn)) as [[|x r]|].
        -- rewrite T. do 2 eexists. split; [reflexivity|constructor].
        -- destruct T as (-> & _). cbn [map]. apply (attempt_no _ fs m link linknull base (check && can) crc true (Some (c :: q)) (Some (x :: r)) link linknull DW). lia.
        -- rewrite T. cbn [map]. apply (attempt_no _ fs m link linknull base (check && can) crc true (Some (c :: q)) None link linknull DW). lia.
      * apply (attempt_no _ fs m link linknull base (check && can) crc false dirname (Some (c :: q)) link linknull DW). lia.
Qed.
Lemma elements_ok : forall fs m dirname link linknull base def can crc ps,
  exists ev r s, elements fs m dirname link linknull base def can crc ps = Ok (ev, r) /\ same r s /\
    search fs m crc can def (groups (is_some (m_dw m)) dirname link linknull base) ps s.
Proof.
  intros fs m dirname link linknull base def can crc. induction ps as [|p ps IH]; cbn [elements].
  - do 3 eexists. split; [reflexivity|]. split; [reflexivity|constructor].
  - destruct (element_ok fs m dirname link linknull base def can crc p) as (ev & s & -> & W). cbn [obind]. destruct s as [|e|n f fd].
    + destruct IH as (ev' & r & s & -> & S & SE). cbn [obind]. do 3 eexists. split; [reflexivity|]. split; [exact S|]. apply SNext; assumption.
    + do 3 eexists. split; [reflexivity|]. split; [reflexivity|]. apply SHere. exact W.
    + do 3 eexists. split; [reflexivity|]. split; [reflexivity|]. apply SHere. exact W.
Qed.
Lemma look_in : forall fs ns e n f, look fs e ns = inr (n, f) -> fs n = Opened f /\ f_main f = false /\ In n ns.
Proof.
  intros fs. induction ns as [|n ns IH]; intros e n' f E; cbn [look] in E; [discriminate|]. destruct (fs n) as [e'|f'] eqn:F.
  - apply IH in E. cbn. tauto.
  - destruct (f_main f') eqn:M; [apply IH in E; cbn; tauto|]. injection E as <- <-. cbn. auto.
Qed.
Lemma walk_sound : forall fs m check crc gs n f, walk fs m check crc gs (Some (SFile n f)) -> fs n = Opened f /\ f_main f = false /\ right m f check crc.
Proof.
  intros fs m check crc gs n f W. remember (Some (SFile n f)) as r. induction W; try discriminate; auto. injection Heqr as -> ->. apply look_in in H. tauto.
Qed.
Lemma search_sound : forall fs m crc can def gr ps n f, search fs m crc can def gr ps (SFile n f) -> fs n = Opened f /\ f_main f = false /\ exists p, In p ps /\ right m f (fst (signed def p) && can) crc.
Proof.
  intros fs m crc can def gr ps n f S. remember (SFile n f) as r. induction S; subst; try discriminate.
  - destruct (IHS eq_refl) as (A & B & p' & I & R). split; [exact A|]. split; [exact B|]. exists p'. split; [right; exact I|exact R].
  - apply walk_sound in H. destruct H as (A & B & R). split; [exact A|]. split; [exact B|]. exists p. split; [left; reflexivity|exact R].
Qed.

(* the name by build ID *)
Lemma put_ok : forall pre old post s, length old = length s -> put (pre ++ old ++ post) (zlen pre) s = Ok (pre ++ s ++ post).
Proof.
  intros pre old post s L. unfold put. rewrite !zlen_app. pose proof (zlen_nonneg _ pre). pose proof (zlen_nonneg _ post). replace ((0 <=? zlen pre) && (zlen pre + zlen s <=? zlen pre + (zlen old + zlen post))) with true by (unfold zlen in *; rewrite L; lia). f_equal. unfold zlen. rewrite Nat2Z.id, firstn_app, firstn_all, Nat.sub_diag. cbn [firstn]. rewrite app_nil_r. f_equal. f_equal. rewrite <- L. rewrite skipn_app. replace (length pre + length old - length pre)%nat with (length old) by lia. rewrite skipn_all2 by lia. rewrite skipn_app, skipn_all, Nat.sub_diag. reflexivity.
Qed.
Lemma string_app : forall s r, Forall (fun c => c <> 0) s -> string_of (s ++ 0 :: r) = s.
Proof. induction s as [|c s IH]; intros r F; [reflexivity|]. apply Forall_cons_iff in F. destruct F as (C & F). cbn [app string_of]. replace (c =? 0) with false by lia. rewrite IH by exact F. reflexivity. Qed.
Lemma hex_nz : forall b, is_u8 b -> Forall (fun c => c <> 0) (hex2 b).
Proof. intros b B. unfold is_u8 in B. unfold hex2, hex1. pose proof (Z.div_pos b 16 ltac:(lia) ltac:(lia)). pose proof (Z.mod_pos_bound b 16 ltac:(lia)). repeat constructor; [destruct (b / 16 <? 10)|destruct (b mod 16 <? 10)]; lia. Qed.
Definition hexes (id : bytes) : bytes := concat (map hex2 id).
Lemma hexes_len : forall id, length (hexes id) = (2 * length id)%nat.
Proof. induction id as [|b id IH]; [reflexivity|]. unfold hexes in *. cbn [map concat]. rewrite app_length, IH. cbn [length hex2]. lia. Qed.
(* the rest of the buffer after the first n of a byte string *)
Lemma room : forall (l : bytes) n, (n <= length l)%nat -> exists a b, l = a ++ b /\ length a = n.
Proof. intros l n L. exists (firstn n l), (skipn n l). split; [symmetry; apply firstn_skipn|apply firstn_length_le; exact L]. Qed.
Lemma put_bytes_ok : forall id pre tail i, zlen pre = 11 + 3 + (i - 1) * 2 -> (2 * length id <= length tail)%nat ->
  exists tail', put_bytes (pre ++ 0 :: tail) i id = Ok (pre ++ hexes id ++ 0 :: tail') /\ (length tail' + 2 * length id = length tail)%nat.
Proof.
  induction id as [|b id IH]; intros pre tail i P L; cbn [put_bytes].
  - exists tail. split; [reflexivity|cbn; lia].
  - cbn [length] in L. destruct (room tail 2 ltac:(lia)) as (a & t & -> & LA). replace (pre ++ 0 :: a ++ t) with (pre ++ (0 :: a) ++ t) by reflexivity. rewrite <- P, (put_ok pre (0 :: a) t (hex2 b ++ [0])) by (cbn; lia). cbn [obind]. replace (pre ++ (hex2 b ++ [0]) ++ t) with ((pre ++ hex2 b) ++ 0 :: t) by (rewrite <- !app_assoc; reflexivity). rewrite app_length in L.
    destruct (IH (pre ++ hex2 b) t (i + 1)) as (t' & -> & LT); [rewrite zlen_app; change (zlen (hex2 b)) with 2; lia|lia|]. exists t'. split; [unfold hexes; cbn [map concat]; rewrite <- !app_assoc; reflexivity|cbn [length]; rewrite app_length; lia].
Qed.
Lemma name_ok : forall garbage debug id, zlen garbage = buf_size -> bytes_ok id -> 3 <= zlen id <= 64 ->
  exists buf, id_name garbage debug id = Ok buf /\ string_of buf = build_id_dir ++ hex2 (hd 0 id) ++ [SLASH] ++ hexes (tl id) ++ (if debug then dot_debug else []).
Proof.
  intros garbage debug id G F L. unfold buf_size, zlen in *. unfold id_name. destruct (room garbage 12 ltac:(lia)) as (a & g & -> & LA). rewrite app_length in G. pose proof (put_ok [] a g (build_id_dir ++ [0]) LA) as P0. change (put (a ++ g) 0 (build_id_dir ++ [0]) = Ok ((build_id_dir ++ [0]) ++ g)) in P0. rewrite P0. cbn [obind]. destruct id as [|b rest]; [cbn in L; lia|]. apply Forall_cons_iff in F. destruct F as (B & F). cbn [hd tl length] in *.
  destruct (room g 3 ltac:(lia)) as (a2 & g2 & -> & LA2). rewrite app_length in G. replace ((build_id_dir ++ [0]) ++ a2 ++ g2) with (build_id_dir ++ (0 :: a2) ++ g2) by (rewrite <- app_assoc; reflexivity). pose proof (put_ok build_id_dir (0 :: a2) g2 (hex2 b ++ [SLASH; 0]) ltac:(cbn; lia)) as P1. change (zlen build_id_dir) with 11 in P1. rewrite P1. cbn [obind].
  replace (build_id_dir ++ (hex2 b ++ [SLASH; 0]) ++ g2) with ((build_id_dir ++ hex2 b ++ [SLASH]) ++ 0 :: g2) by (rewrite <- !app_assoc; reflexivity). destruct (put_bytes_ok rest (build_id_dir ++ hex2 b ++ [SLASH]) g2 1) as (t & -> & LT); [reflexivity|lia|]. cbn [obind].
  assert (NZ : Forall (fun c => c <> 0) ((build_id_dir ++ hex2 b ++ [SLASH]) ++ hexes rest)).
  { apply Forall_app. split; [apply Forall_app; split; [repeat constructor; discriminate|apply Forall_app; split; [apply hex_nz; exact B|repeat constructor; discriminate]]|]. clear - F. induction F as [|x l X F IH]; [constructor|]. unfold hexes in *. cbn [map concat]. apply Forall_app. split; [apply hex_nz; exact X|exact IH]. }
  destruct debug.
  - destruct (room t 6 ltac:(lia)) as (a3 & g3 & -> & LA3). replace ((build_id_dir ++ hex2 b ++ [SLASH]) ++ hexes rest ++ 0 :: a3 ++ g3) with (((build_id_dir ++ hex2 b ++ [SLASH]) ++ hexes rest) ++ (0 :: a3) ++ g3) by (rewrite <- !app_assoc; reflexivity).
    replace (11 + 3 + (zlen (b :: rest) - 1) * 2) with (zlen ((build_id_dir ++ hex2 b ++ [SLASH]) ++ hexes rest)) by (unfold zlen; rewrite (app_length _ (hexes rest)), hexes_len, !app_length; cbn [length build_id_dir hex2]; lia). rewrite put_ok by (cbn; lia). eexists. split; [reflexivity|].
    replace (((build_id_dir ++ hex2 b ++ [SLASH]) ++ hexes rest) ++ (dot_debug ++ [0]) ++ g3) with ((((build_id_dir ++ hex2 b ++ [SLASH]) ++ hexes rest) ++ dot_debug) ++ 0 :: g3) by (rewrite <- !app_assoc; reflexivity). rewrite string_app; [rewrite <- !app_assoc; reflexivity|]. apply Forall_app. split; [exact NZ|repeat constructor; discriminate].
  - eexists. split; [reflexivity|]. rewrite app_assoc, string_app by exact NZ. rewrite app_nil_r, <- !app_assoc. reflexivity.
Qed.
