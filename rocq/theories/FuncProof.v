(* Proofs about FuncModel. *)
From Verif Require Import Base ScopeModel ScopeSpec ScopeProof FuncModel FuncSpec.
From Verif Require SegProof.
From Coq Require Import ZifyBool ZifyNat.

Section show.
Context {B : Type} (cb : B -> Z -> B * Z).
Lemma show_app : forall l1 l2 b, show cb (l1 ++ l2) b = let '(b1, r, x) := show cb l1 b in if r =? 0 then show cb l2 b1 else (b1, r, x).
Proof using.
  induction l1 as [|d l1 IH]; intros l2 b; cbn [app show]; [reflexivity|]. destruct (cb b d) as [b1 r]. destruct (r =? 0) eqn:R; [apply IH|]. rewrite R. reflexivity.
Qed.
End show.
Lemma behind_app : forall x l1 l2, behind x (l1 ++ l2) = if existsb (Z.eqb x) l1 then behind x l1 ++ l2 else behind x l2.
Proof. induction l1 as [|d l1 IH]; intro l2; [reflexivity|]. cbn [app behind existsb]. rewrite (Z.eqb_sym x d). destruct (d =? x); [reflexivity|]. cbn [orb]. apply IH. Qed.
Lemma behind_filter : forall p x l, p x = true -> filter p (behind x l) = behind x (filter p l).
Proof. intros p x l P. induction l as [|d l IH]; [reflexivity|]. cbn [behind filter]. destruct (d =? x) eqn:E; [replace d with x by lia; rewrite P; cbn [behind]; rewrite Z.eqb_refl; reflexivity|]. rewrite IH. destruct (p d); [cbn [behind]; rewrite E; reflexivity|reflexivity]. Qed.
Lemma behind_none : forall x l, existsb (Z.eqb x) l = false -> behind x l = [].
Proof. induction l as [|d l IH]; [reflexivity|]. cbn [existsb behind]. rewrite (Z.eqb_sym x d). destruct (d =? x); [discriminate|exact IH]. Qed.

Section funcs.
Context {B : Type} (w : view) (declared : Z -> bool) (cb : B -> Z -> B * Z) (lang : Z).
Notation tvf := (tv (tree_visitor w declared cb (c_lang lang)) None).
Notation ents := (entries (entered w lang)).
Notation def := (defines w declared).
Lemma entered_iff : forall d, c_lang lang && negb (v_tag w d =? TAG_subprogram) && negb (v_tag w d =? TAG_lexical_block) && negb (v_tag w d =? TAG_inlined_subroutine) = negb (entered w lang d).
Proof using. intro d. unfold entered, c_lang, TAG_subprogram, TAG_lexical_block, TAG_inlined_subroutine. cbn [existsb]. destruct (lang =? 1), (lang =? 2), (lang =? 12), (lang =? 29); cbn [orb andb negb]; try reflexivity; destruct (v_tag w d =? 46), (v_tag w d =? 11), (v_tag w d =? 29); reflexivity. Qed.
(* from the beginning *)
Lemma tv_show : forall f depth parents last b, exists last', tvf depth parents f (Finfo 0 last b) = (let '(b', r, _) := show cb (filter def (ents f)) b in Ok (Finfo 0 last' b', r)) /\ (let '(_, r, x) := show cb (filter def (ents f)) b in r <> 0 -> last' = x).
Proof using.
  induction f as [|d b0 IHb n IHn]; intros depth parents last b; cbn [tv entries filter show]; [exists last; split; [reflexivity|intro N; contradiction N; reflexivity]|].
  unfold tree_visitor at 1. rewrite entered_iff. cbn [fi_start fi_last fi_b Z.eqb negb]. destruct (entered w lang d); cbn [negb].
  2:{ cbn [obind app]. exact (IHn depth parents last b). }
  assert (E : negb (v_tag w d =? TAG_subprogram) || declared d = negb (def d)) by (unfold defines, TAG_subprogram; destruct (v_tag w d =? 46), (declared d); reflexivity). rewrite E. clear E.
  assert (REST : forall last b, exists last', (' (a, r) <- tvf (S depth) (d :: parents) b0 (Finfo 0 last b) ;; if negb (r =? 0) then Ok (a, r) else ' (a, r) <- Ok (a, 0) ;; if negb (r =? 0) then Ok (a, r) else tvf depth parents n a)
    = (let '(b', r, _) := show cb (filter def (ents b0) ++ filter def (ents n)) b in Ok (Finfo 0 last' b', r)) /\ (let '(_, r, x) := show cb (filter def (ents b0) ++ filter def (ents n)) b in r <> 0 -> last' = x)).
  { intros last1 b1. destruct (IHb (S depth) (d :: parents) last1 b1) as (l2 & E2 & L2). rewrite E2, show_app. destruct (show cb (filter def (ents b0)) b1) as [[b2 r2] x2]. cbn [obind]. destruct (r2 =? 0) eqn:R; cbn [negb].
    - cbn [obind Z.eqb negb]. apply IHn.
    - exists l2. split; [reflexivity|exact L2]. }
  cbn [app filter]. rewrite filter_app. destruct (def d); cbn [negb].
  - cbn [app show]. destruct (cb b d) as [b1 r1]. cbn [obind]. destruct (r1 =? 0) eqn:R; cbn [negb]; [apply REST|]. exists d. split; [reflexivity|]. intros _. reflexivity.
  - cbn [obind Z.eqb negb]. apply REST.
Qed.
(* from behind an entry *)
Lemma tv_behind : forall s f, s <> 0 -> forall depth parents last b,
  if existsb (Z.eqb s) (ents f) then exists last', tvf depth parents f (Finfo s last b) = (let '(b', r, _) := show cb (filter def (behind s (ents f))) b in Ok (Finfo 0 last' b', r)) /\ (let '(_, r, x) := show cb (filter def (behind s (ents f))) b in r <> 0 -> last' = x)
  else tvf depth parents f (Finfo s last b) = Ok (Finfo s last b, 0).
Proof using.
  intros s f S0. induction f as [|d b0 IHb n IHn]; intros depth parents last b; cbn [tv entries existsb]; [reflexivity|].
  assert (V : tree_visitor w declared cb (c_lang lang) (S depth) (d :: parents) (Finfo s last b) = Ok (if entered w lang d && (d =? s) then Finfo 0 last b else Finfo s last b, negb (entered w lang d), 0)).
  { unfold tree_visitor. rewrite entered_iff. cbn [fi_start fi_last fi_b]. replace (s =? 0) with false by lia. destruct (entered w lang d); reflexivity. }
  rewrite V. clear V. destruct (entered w lang d); cbn [negb andb].
  2:{ cbn [obind app Z.eqb negb]. exact (IHn depth parents last b). }
  cbn [obind Z.eqb negb app existsb]. rewrite (Z.eqb_sym s d). destruct (d =? s) eqn:DS.
  - cbn [orb behind]. rewrite DS. destruct (tv_show b0 (S depth) (d :: parents) last b) as (l2 & E2 & L2). rewrite E2, filter_app, show_app. destruct (show cb (filter def (ents b0)) b) as [[b2 r2] x2]. cbn [obind]. destruct (r2 =? 0) eqn:R; cbn [negb]; [cbn [obind Z.eqb negb]; apply tv_show|]. exists l2. split; [reflexivity|exact L2].
  - cbn [orb behind]. rewrite DS. rewrite existsb_app. specialize (IHb (S depth) (d :: parents) last b). rewrite behind_app. destruct (existsb (Z.eqb s) (ents b0)); cbn [orb].
    + destruct IHb as (l2 & E2 & L2). rewrite E2, filter_app, show_app. destruct (show cb (filter def (behind s (ents b0))) b) as [[b2 r2] x2]. cbn [obind]. destruct (r2 =? 0) eqn:R; cbn [negb]; [cbn [obind Z.eqb negb]; apply tv_show|]. exists l2. split; [reflexivity|exact L2].
    + rewrite IHb. cbn [obind Z.eqb negb]. apply IHn.
Qed.
Definition shown (off : Z) (f : forest) : list Z := filter def (if off =? 0 then ents f else behind off (ents f)).
Lemma getfuncs_ok : forall cu f, unit_tree w cu f -> v_tag w cu = 17 -> exists k0, forall k off b, (k0 <= k)%nat ->
  getfuncs w declared cb k lang cu off b = let '(b', r, x) := show cb (shown off f) b in Ok (b', if r =? 1 then x else r).
Proof using.
  intros cu f T C. destruct (unit_walk w cu f T) as (k0 & _ & W). exists k0. intros k off b K. unfold getfuncs. rewrite C. cbn [TAG_compile_unit Z.eqb Pos.eqb negb]. rewrite W by exact K. unfold shown. destruct (off =? 0) eqn:O.
  - replace off with 0 by lia. destruct (tv_show f 0 [cu] 0 b) as (l & E & L). rewrite E. destruct (show cb (filter def (ents f)) b) as [[b' r] x]. cbn [obind fi_b fi_last]. unfold CB_ABORT. destruct (r =? 1) eqn:R; [rewrite L by lia; reflexivity|reflexivity].
  - pose proof (tv_behind off f ltac:(lia) 0%nat [cu] 0 b) as H. destruct (existsb (Z.eqb off) (ents f)) eqn:EX.
    + destruct H as (l & E & L). rewrite E. destruct (show cb (filter def (behind off (ents f))) b) as [[b' r] x]. cbn [obind fi_b fi_last]. unfold CB_ABORT. destruct (r =? 1) eqn:R; [rewrite L by lia; reflexivity|reflexivity].
    + rewrite H, behind_none by exact EX. reflexivity.
Qed.
(* the walk over any entries, whatever they are *)
Lemma walk_inv : forall A (pre : nat -> list Z -> A -> outcome (A * bool * Z)) (I : A -> Prop), (forall depth d l a, I a -> match pre depth (d :: l) a with Ok (a, _, _) => I a | Err _ => True | _ => False end) ->
  forall k depth parents imports c a, I a -> match walk w pre None k depth parents imports c a with Ok (a, _) => I a | UB => False | _ => True end.
Proof using.
  intros A pre I P. induction k as [|k IH]; intros depth parents imports c a H; cbn [walk]; [exact Logic.I|].
  assert (NX : forall a, I a -> match (match v_sib w c with Got c1 => walk w pre None k depth parents imports c1 a | NoMore => Ok (a, 0) | Bad => Ok (a, -1) end) with Ok (a, _) => I a | UB => False | _ => True end) by (intros a1 H1; destruct (v_sib w c); [apply IH; exact H1|exact H1|exact H1]).
  destruct (v_tag w c =? TAG_imported_unit).
  - destruct (v_import w c) as [u|]; [|apply NX; exact H]. destruct (v_kid w u) as [c1| |]; [|apply NX; exact H|apply NX; exact H]. destruct (existsb _ _); [exact H|]. specialize (IH depth parents (c :: imports) c1 a H). destruct (walk w pre None k depth parents (c :: imports) c1 a) as [[a1 r]|e| |]; try exact IH. cbn [obind]. destruct (negb _); [exact IH|apply NX; exact IH].
  - specialize (P (S depth) c parents a H). destruct (pre (S depth) (c :: parents) a) as [[[a1 pr] r]|e| |]; try exact P; try contradiction. cbn [obind]. destruct (negb (r =? 0)); [exact P|].
    set (m := if negb pr && _ && _ then _ else _). assert (M : match m with Ok (a, _) => I a | UB => False | _ => True end) by (unfold m; destruct (negb pr && _ && _); [destruct (v_kid w c); [apply IH; exact P|exact P|exact P]|exact P]). destruct m as [[a2 r2]|e| |]; try exact M. cbn [obind]. destruct (negb (r2 =? 0)); [exact M|]. cbn [obind Z.eqb negb]. apply NX. exact M.
Qed.
Lemma visit_inv : forall A (pre : nat -> list Z -> A -> outcome (A * bool * Z)) (I : A -> Prop), (forall depth d l a, I a -> match pre depth (d :: l) a with Ok (a, _, _) => I a | Err _ => True | _ => False end) ->
  forall k depth root parents imports a, I a -> match visit_scopes w pre None k depth (root :: parents) imports a with Ok (a, _) => I a | UB => False | _ => True end.
Proof using. intros A pre I P k depth root parents imports a H. unfold visit_scopes. destruct (v_kid w root); [apply walk_inv; assumption|exact H|exact H]. Qed.

(* instances *)
Definition origin_of (origin : Z -> oref) (d : Z) : option Z := match origin d with Origin o => Some o | _ => None end.
Lemma tv_instances : forall origin func f depth parents b, Forall (fun d => v_tag w d = 29 -> origin d <> BadOrigin) (entries (fun _ => true) f) ->
  tv (inline_visitor w cb origin func) None depth parents f b = let '(b', r, _) := show cb (instances w (origin_of origin) func f) b in Ok (b', r).
Proof using.
  intros origin func. unfold instances. set (p := fun d => _ && _). induction f as [|d b0 IHb n IHn]; intros depth parents b F; cbn [tv entries filter show]; [reflexivity|]. cbn [entries app] in F. apply Forall_cons_iff in F as (D & F). apply Forall_app in F as (F1 & F2).
  assert (REST : forall b, (' (a, r) <- tv (inline_visitor w cb origin func) None (S depth) (d :: parents) b0 b ;; if negb (r =? 0) then Ok (a, r) else ' (a, r) <- Ok (a, 0) ;; if negb (r =? 0) then Ok (a, r) else tv (inline_visitor w cb origin func) None depth parents n a)
    = let '(b', r, _) := show cb (filter p (entries (fun _ => true) b0) ++ filter p (entries (fun _ => true) n)) b in Ok (b', r)).
  { intro b1. rewrite IHb by exact F1. rewrite show_app. destruct (show cb (filter p (entries (fun _ => true) b0)) b1) as [[b2 r2] x2]. cbn [obind]. destruct (r2 =? 0); cbn [negb obind Z.eqb]; [apply IHn; exact F2|reflexivity]. }
  cbn [app filter]. rewrite filter_app. unfold inline_visitor at 1. replace (p d) with ((v_tag w d =? 29) && match origin d with Origin o => o =? func | _ => false end) by (unfold p, origin_of; destruct (origin d); reflexivity). change TAG_inlined_subroutine with 29. destruct (v_tag w d =? 29) eqn:TG; cbn [negb andb]; [|cbn [obind Z.eqb negb]; apply REST].
  destruct (origin d) as [| |o] eqn:O; [cbn [obind Z.eqb negb]; apply REST|destruct (D (proj1 (Z.eqb_eq _ _) TG) eq_refl)|]. destruct (o =? func); cbn [negb]; [|cbn [obind Z.eqb negb]; apply REST]. cbn [app show]. destruct (cb b d) as [b1 r1]. cbn [obind]. destruct (r1 =? 0) eqn:R; cbn [negb]; [apply REST|reflexivity].
Qed.
End funcs.

Lemma show_keeps : forall stop l seen, exists l1 l2 r x, show (keeps stop) l seen = (seen ++ l1, r, x) /\ l = l1 ++ l2 /\ ((r = 0 /\ l2 = []) \/ (r = 1 /\ exists l0, l1 = l0 ++ [x])).
Proof.
  intros stop l. induction l as [|d l IH]; intro seen; cbn [show]; [exists [], [], 0, 0; rewrite app_nil_r; split; [reflexivity|]; split; [reflexivity|left; auto]|]. unfold keeps at 1. destruct (stop seen d); cbn [Z.eqb].
  - exists [d], l, 1, d. split; [reflexivity|]. split; [reflexivity|]. right. split; [reflexivity|]. exists []. reflexivity.
  - destruct (IH (seen ++ [d])) as (l1 & l2 & r & x & E & L & H). exists (d :: l1), l2, r, x. rewrite E, <- app_assoc. split; [reflexivity|]. split; [rewrite L; reflexivity|]. destruct H as [H|(R & l0 & H)]; [left; exact H|right]. split; [exact R|]. exists (d :: l0). rewrite H. reflexivity.
Qed.
Lemma behind_mid : forall x l1 l2, NoDup (l1 ++ x :: l2) -> behind x (l1 ++ x :: l2) = l2.
Proof.
  induction l1 as [|d l1 IH]; intros l2 N; cbn [app behind]; [rewrite Z.eqb_refl; reflexivity|]. cbn [app] in N. apply NoDup_cons_iff in N as (D & N). replace (d =? x) with false; [apply IH; exact N|]. symmetry. apply Z.eqb_neq. intros ->. apply D. apply in_or_app. right. left. reflexivity.
Qed.
Lemma again_ok : forall gf stop all, NoDup all -> (forall d, In d all -> d <> 0) ->
  (forall off seen, off = 0 \/ In off all -> gf off seen = let '(b', r, x) := show (keeps stop) (if off =? 0 then all else behind off all) seen in Ok (b', if r =? 1 then x else r)) ->
  forall n done rest off, all = done ++ rest -> (off = 0 /\ done = [] \/ exists d0, done = d0 ++ [off]) -> (length rest < n)%nat -> again gf n off done = Some all.
Proof.
  intros gf stop all ND NZ G. induction n as [|n IH]; intros done rest off E O L; [lia|]. cbn [again].
  assert (R : gf off done = let '(b', r, x) := show (keeps stop) rest done in Ok (b', if r =? 1 then x else r)).
  { destruct O as [(-> & ->)|(d0 & D)].
    - rewrite G by (left; reflexivity). cbn [Z.eqb]. rewrite E. reflexivity.
    - assert (I : In off all) by (rewrite E, D; apply in_or_app; left; apply in_or_app; right; left; reflexivity). rewrite G by (right; exact I). replace (off =? 0) with false by (specialize (NZ off I); lia). replace (behind off all) with rest; [reflexivity|]. rewrite E, D, <- app_assoc. cbn [app]. symmetry. apply behind_mid. rewrite E, D, <- app_assoc in ND. exact ND. }
  rewrite R. destruct (show_keeps stop rest done) as (l1 & l2 & r & x & S1 & LE & H). rewrite S1. destruct H as [(-> & ->)|(-> & l0 & H)]; cbn [Z.eqb Pos.eqb].
  - rewrite E, LE, app_nil_r. reflexivity.
  - assert (I : In x all) by (rewrite E, LE, H; apply in_or_app; right; apply in_or_app; left; apply in_or_app; right; left; reflexivity). replace (x =? 0) with false by (specialize (NZ x I); lia). apply (IH (done ++ l1) l2 x).
    + rewrite E, LE, app_assoc. reflexivity.
    + right. exists (done ++ l0). rewrite H, app_assoc. reflexivity.
    + rewrite LE, H, !app_length in L. cbn [length] in L. lia.
Qed.

(* variables *)
Section var.
Variables (w : view) (name : Z -> option bytes) (udata : Z -> Z -> option Z) (srcfiles : Z -> option (list bytes)) (q : request).
Definition is_named (d : Z) : bool := ((v_tag w d =? 52) || (v_tag w d =? 5)) && has_name name q d.
Lemma is_named_ok : forall d, is_named d = true <-> named w name (q_name q) d.
Proof.
  intro d. unfold is_named, named, has_name. rewrite andb_true_iff, orb_true_iff, !Z.eqb_eq. destruct (name d) as [n|]; [destruct (list_eq_dec Z.eq_dec (q_name q) n) as [->|NE]|]; split; intros (H1 & H2); split; try exact H1; try reflexivity; try discriminate. congruence.
Qed.
Lemma first_named_ok : forall l, first_named w name (q_name q) l (find is_named l).
Proof.
  induction l as [|d l IH]; [constructor|]. cbn [find]. destruct (is_named d) eqn:N; [exists [], l; split; [reflexivity|]; split; [apply is_named_ok; exact N|constructor]|]. assert (ND : ~ named w name (q_name q) d) by (intro H; apply is_named_ok in H; congruence).
  destruct (find is_named l) as [x|]; cbn [first_named] in *; [|constructor; assumption]. destruct IH as (l1 & l2 & -> & X & F). exists (d :: l1), l2. split; [reflexivity|]. split; [exact X|constructor; assumption].
Qed.
Definition accept (s d : Z) : outcome bool := decl_matches udata srcfiles q s d.
Lemma loop_ok : forall s d l, row w d l -> exists k0, forall k skip, (k0 <= k)%nat ->
  scope_loop w name udata srcfiles k q s d skip = match find is_named l with None => Ok (inr skip) | Some x => if 0 <? skip then Ok (inr (skip - 1)) else obind (accept s x) (fun ok => if ok then Ok (inl x) else Ok (inr skip)) end.
Proof.
  intros s d l R. induction R as [d E|d d' l E R (k0 & IH)].
  - exists 1%nat. intros k skip K. destruct k as [|k]; [lia|]. cbn [scope_loop find]. unfold is_named. change TAG_variable with 52. change TAG_formal_parameter with 5. assert (NX : match v_sib w d with Got d0 => scope_loop w name udata srcfiles k q s d0 skip | _ => Ok (inr skip) end = Ok (inr skip)) by (destruct (v_sib w d) as [d1| |]; [destruct (E d1 eq_refl)|reflexivity|reflexivity]). rewrite NX. destruct (v_tag w d =? 52), (v_tag w d =? 5); cbn [negb andb orb]; try reflexivity; destruct (has_name name q d); reflexivity.
  - exists (S k0). intros k skip K. destruct k as [|k]; [lia|]. cbn [scope_loop find]. unfold is_named at 1. change TAG_variable with 52. change TAG_formal_parameter with 5. rewrite E. rewrite IH by lia. destruct (v_tag w d =? 52), (v_tag w d =? 5); cbn [negb andb orb]; try reflexivity; destruct (has_name name q d); reflexivity.
Qed.
(* the names of the search: the first of the places that is accepted *)
Fixpoint pick (l : list (Z * Z * Z)) : outcome (Z * option Z) :=
  match l with
  | [] => Ok (-2, None)
  | (i, s, d) :: l => ok <- accept s d ;; if ok then Ok (i, Some d) else pick l
  end.
Lemma var_ok : forall scopes ls, Forall2 (inside w) scopes ls -> exists k0, forall k out skip, (k0 <= k)%nat -> 0 <= skip ->
  getscopevar w name udata srcfiles k q out scopes skip = pick (skipn (Z.to_nat skip) (places out scopes (map (find is_named) ls))).
Proof.
  intros scopes ls F. induction F as [|s l scopes ls I F (k1 & IH)]; [exists O; intros k out skip K S0; cbn [getscopevar places map]; rewrite skipn_nil; reflexivity|].
  unfold inside in I. cbn [getscopevar places map]. destruct (v_haskids w s).
  - destruct I as (d & KD & R). rewrite KD. destruct (loop_ok s d l R) as (k2 & L). exists (k1 + k2)%nat. intros k out skip K S0. rewrite L by lia. destruct (find is_named l) as [x|]; [|cbn [obind]; apply IH; lia].
    destruct (0 <? skip) eqn:SK; cbn [obind].
    + rewrite IH by lia. replace (Z.to_nat skip) with (S (Z.to_nat (skip - 1))) by lia. reflexivity.
    + replace (Z.to_nat skip) with O by lia. cbn [skipn pick]. destruct (accept s x) as [[|]|e| |]; cbn [obind]; try reflexivity. rewrite IH by lia. replace (Z.to_nat skip) with O by lia. reflexivity.
  - subst l. exists k1. intros k out skip K S0. cbn [find]. apply IH; lia.
Qed.
Lemma file_ok : forall m files i, exists b, file_matches m files i = Ok b /\ (b = true <-> exists file, znth files i = Some file /\ file_is m file).
Proof using name srcfiles udata.
  intros m files i. unfold file_matches. destruct (znth files i) as [f|]; [|exists false; split; [reflexivity|split; [discriminate|intros (x & X & _); discriminate]]].
  pose proof (zlen_nonneg _ m) as M0. assert (PRE : forall rest, zsub (m ++ rest) 0 (zlen m) = m). { intro rest. unfold zsub, zlen. rewrite Nat2Z.id. change (Z.to_nat 0) with O. cbn [skipn]. rewrite firstn_app, firstn_all, Nat.sub_diag. cbn [firstn]. apply app_nil_r. }
  assert (F : file_is m f -> zlen m <= zlen f /\ m = zsub f 0 (zlen m)). { intros [->|(rest & -> & _)]; [split; [lia|rewrite <- (app_nil_r m) at 2; rewrite PRE; reflexivity]|]. rewrite zlen_app, PRE. pose proof (zlen_nonneg _ rest). split; [lia|reflexivity]. }
  destruct (zlen m <=? zlen f) eqn:L; cbn [negb]; [|exists false; split; [reflexivity|split; [discriminate|intros (x & X & H); injection X as <-; apply F in H; lia]]].
  destruct (list_eq_dec Z.eq_dec m (zsub f 0 (zlen m))) as [P|NP]; cbn [negb]; [|exists false; split; [reflexivity|split; [discriminate|intros (x & X & H); injection X as <-; apply F in H; destruct H; contradiction]]].
  assert (SPLIT : f = m ++ skipn (length m) f). { rewrite P at 1. unfold zsub. change (Z.to_nat 0) with O. cbn [skipn]. unfold zlen. rewrite Nat2Z.id. symmetry. apply firstn_skipn. }
  destruct (zlen f =? zlen m) eqn:E.
  - exists true. split; [reflexivity|]. split; [intros _|reflexivity]. exists f. split; [reflexivity|]. left. assert (ZL : zlen (skipn (length m) f) = 0) by (unfold zlen in *; rewrite skipn_length; lia). destruct (skipn (length m) f); [rewrite app_nil_r in SPLIT; exact SPLIT|rewrite zlen_cons in ZL; pose proof (zlen_nonneg _ l); lia].
  - destruct (Base.znth_in _ f (zlen f - zlen m - 1) ltac:(lia)) as (c & C). rewrite C. exists (c =? 47). split; [reflexivity|]. split.
    + intro H. exists f. split; [reflexivity|]. right. exists (skipn (length m) f). split; [exact SPLIT|]. rewrite C. f_equal. lia.
    + intros (x & X & H). injection X as <-. destruct H as [->|(rest & _ & H)]; [lia|]. rewrite C in H. injection H as ->. reflexivity.
Qed.
Lemma accept_ok : forall s d, exists b, accept s d = Ok b /\ (b = true <-> match q_file q with None => True | Some m => exists i files file, udata d 58 = Some i /\ srcfiles s = Some files /\ znth files i = Some file /\ file_is m file /\ number_is udata d 59 (q_line q) /\ number_is udata d 57 (q_col q) end).
Proof.
  assert (NUM : forall d a n, number_ok udata d a n = true <-> number_is udata d a n).
  { intros d a n. unfold number_ok, number_is. destruct (0 <? n) eqn:P; [|split; [intros _ H; lia|reflexivity]]. split; [intros H _|intro H; destruct (H ltac:(lia)) as (i & -> & E); lia]. destruct (udata d a) as [i|]; [|discriminate]. exists i. split; [reflexivity|lia]. }
  intros s d. unfold accept, decl_matches. destruct (q_file q) as [m|]; [|exists true; split; [reflexivity|split; auto]]. change AT_decl_file with 58. destruct (udata d 58) as [i|]; [|exists false; split; [reflexivity|split; [discriminate|intros (i & fs & f & X & _); discriminate]]].
  destruct (srcfiles s) as [fs|]; [|exists false; split; [reflexivity|split; [discriminate|intros (i0 & fs & f & _ & X & _); discriminate]]]. destruct (file_ok m fs i) as (b & -> & B). cbn [obind]. eexists. split; [reflexivity|]. change AT_decl_line with 59. change AT_decl_column with 57. rewrite !andb_true_iff, !NUM, B. split.
  - intros (((f & F1 & F2) & N1) & N2). exists i, fs, f. auto 10.
  - intros (i0 & fs0 & f & X & Y & F1 & F2 & N1 & N2). injection X as <-. injection Y as <-. split; [split; [exists f; auto|exact N1]|exact N2].
Qed.
End var.
