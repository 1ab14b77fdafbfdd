(* The properties of the search for separate debug files. *)
From Verif Require Import Base CrcModel FindModel FindSpec FindProof.

(* the directory of a file name *)
Definition dir_of (n : bytes) : option bytes := if zlen (base_of n) =? zlen n then None else Some (firstn (length n - length (base_of n) - 1) n).
(* a sign in front of the whole path *)
Definition whole (path : bytes) : bool * bytes := match path with c :: r => if (c =? MINUS) || (c =? PLUS) then (c =? PLUS, r) else (true, path) | [] => (true, path) end.
(* the search by name looks at the files of each element of the path in turn, in the order of the
   specification, takes the first that is right, and fails otherwise *)
Theorem C84_path : forall fs m path file_name link crc, exists ev r, find_in_path fs m path file_name link crc = Ok (ev, r) /\
  match link, file_name with
  | Some l, _ => exists s, same r s /\ search fs m crc (negb (crc =? 0)) (fst (whole path))
      (groups (is_some (m_dw m)) (match file_name with Some n => dir_of n | None => None end) l false (match file_name with Some n => base_of n | None => [] end)) (split_colon [] (snd (whole path))) s
  | None, Some n => if is_some (m_dw m) then r = NotFound 0 else exists s, same r s /\ search fs m crc false (fst (whole path))
      (groups false (dir_of n) (base_of n ++ dot_debug) true (base_of n)) (split_colon [] (snd (whole path))) s
  | None, None => r = NotFound 0
  end.
Proof.
  intros fs m path file_name link crc. unfold find_in_path. change (match path with | [] => (true, path) | c :: r => if (c =? MINUS) || (c =? PLUS) then (c =? PLUS, r) else (true, path) end) with (whole path). destruct (whole path) as [def p]. cbn [fst snd].
  assert (DN : forall fn, match fn with Some n => if zlen (base_of n) =? zlen n then None else Some (firstn (length n - length (base_of n) - 1) n) | None => None end = match fn with Some n => dir_of n | None => None end) by (intros [n|]; reflexivity). rewrite DN. destruct link as [l|].
  - destruct (elements_ok fs m (match file_name with Some n => dir_of n | None => None end) l false (match file_name with Some n => base_of n | None => [] end) def (negb (crc =? 0)) crc (split_colon [] p)) as (ev & r & s & E & S & SE). exists ev, r. split; [destruct file_name; exact E|]. exists s. auto.
  - destruct file_name as [n|]; cbn [option_map]; [|exists [], (NotFound 0); auto]. destruct (is_some (m_dw m)) eqn:D; [exists [], (NotFound 0); auto|].
    destruct (elements_ok fs m (dir_of n) (base_of n ++ dot_debug) true (base_of n) def false crc (split_colon [] p)) as (ev & r & s & E & S & SE). rewrite D in SE. exists ev, r. split; [exact E|]. exists s. auto.
Qed.
Print Assumptions C84_path.
(* strings *)
Definition root : bytes := [47; 117].                 (* /u *)
Definition main_name : bytes := [47; 97; 47; 98; 47; 99].  (* /a/b/c *)
Definition dbg : bytes := [99; 46; 100].               (* c.d *)
Definition good : file := File false KPlain (Some 77) (Some [1; 2; 3; 4]).
Definition bad : file := File false KPlain (Some 78) (Some [9; 2; 3; 4]).
Definition fs_of (l : list (bytes * answer)) : bytes -> answer := fun n => match find (fun x => beq (fst x) n) l with Some (_, a) => a | None => Fail ENOENT end.
(* path ":x:/u": the file /u/b/c.d is found *)
Definition ex_path : bytes := [58; 120; 58; 47; 117].
Example C84_path_nonvacuous : find_in_path (fs_of [([47; 97; 47; 98; 47; 120; 47; 99; 46; 100], Opened bad); ([47; 117; 47; 98; 47; 99; 46; 100], Opened good)]) (Modl None None) ex_path (Some main_name) (Some dbg) 77
  = Ok ([EOpen [47; 97; 47; 98; 47; 120; 47; 99; 46; 100]; EClose [47; 97; 47; 98; 47; 120; 47; 99; 46; 100]; EOpen [47; 117; 47; 98; 47; 99; 46; 100]], Found [47; 117; 47; 98; 47; 99; 46; 100] good true).
Proof. vm_compute. reflexivity. Qed.

(* the name by build ID is as documented, and the buffer is never overrun *)
Theorem C84_id_name : forall garbage debug id, zlen garbage = 147 -> bytes_ok id -> 3 <= zlen id <= 64 ->
  exists buf, id_name garbage debug id = Ok buf /\ string_of buf = build_id_dir ++ hex2 (hd 0 id) ++ [SLASH] ++ concat (map hex2 (tl id)) ++ (if debug then dot_debug else []).
Proof. exact name_ok. Qed.
Print Assumptions C84_id_name.
(* /.build-id/01/ab.debug without the last byte 0x05: "/.build-id/01/ab05.debug" *)
Example C84_id_name_nonvacuous : (buf <- id_name (repeat 255 147) true [1; 171; 5] ;; Ok (string_of buf)) = Ok [47; 46; 98; 117; 105; 108; 100; 45; 105; 100; 47; 48; 49; 47; 97; 98; 48; 53; 46; 100; 101; 98; 117; 103] /\ (buf <- id_name (repeat 255 147) true (repeat 255 64) ;; Ok (zlen (string_of buf))) = Ok 146.
Proof. vm_compute. auto. Qed.

(* the name of the file by build ID in each absolute directory of the path *)
Definition unsigned (p : bytes) : bytes := match p with c :: r => if (c =? PLUS) || (c =? MINUS) then r else p | [] => p end.
Definition absolute (d : bytes) : bool := match d with c :: _ => c =? SLASH | [] => false end.
Definition id_names (path id : bytes) : list bytes :=
  map (fun d => d ++ build_id_dir ++ hex2 (hd 0 id) ++ [SLASH] ++ concat (map hex2 (tl id)) ++ dot_debug) (filter absolute (map unsigned (split_colon [] path))).
Definition wanted (m : modl) : option bytes := match m_dw m with Some alt => alt | None => m_id m end.
(* the first that opens, and the error of the last one before *)
Fixpoint first_open (fs : bytes -> answer) (e : Z) (ns : list bytes) : Z * option (bytes * file) :=
  match ns with [] => (e, None) | n :: ns => match fs n with Opened f => (e, Some (n, f)) | Fail e => first_open fs e ns end end.
Lemma by_dirs_ok : forall fs name ps e, exists ev, by_dirs fs name ps e =
  (ev, snd (first_open fs e (map (fun d => d ++ name) (filter absolute (map unsigned ps)))), fst (first_open fs e (map (fun d => d ++ name) (filter absolute (map unsigned ps))))) /\
  ev = match snd (first_open fs e (map (fun d => d ++ name) (filter absolute (map unsigned ps)))) with Some (n, _) => [EOpen n] | None => [] end.
Proof.
  intros fs name. induction ps as [|p ps IH]; intros e; cbn [by_dirs map filter]; [exists []; split; reflexivity|].
  change (match p with | [] => p | c :: r => if (c =? PLUS) || (c =? MINUS) then r else p end) with (unsigned p). destruct (unsigned p) as [|c d]; cbn [absolute]; [apply IH|]. destruct (c =? SLASH); [|apply IH]. cbn [map first_open]. destruct (fs ((c :: d) ++ name)) as [e'|f]; [apply IH|]. cbn [fst snd]. eexists. split; reflexivity.
Qed.
(* the search by build ID examines the first file of that name and takes it exactly if it has the
   build ID; its descriptor is given back or closed *)
Theorem C84_by_id : forall fs m path garbage errno errno' id, zlen garbage = 147 -> wanted m = Some id -> bytes_ok id -> 3 <= zlen id <= 64 ->
  exists ev r, by_build_id fs m path garbage errno errno' = Ok (ev, r) /\
    match snd (first_open fs (if is_some (m_dw m) then errno else 0) (id_names path id)) with
    | None => ev = [] /\ exists e, r = NotFound e /\ (e = 0 <-> let l := fst (first_open fs (if is_some (m_dw m) then errno else 0) (id_names path id)) in l = 0 \/ l = ENOENT)
    | Some (n, f) => fs n = Opened f /\
        ((f_kind f <> KNone /\ f_id f = Some id /\ exists fd, r = Found n f fd /\ ev = if fd then [EOpen n] else [EOpen n; EClose n])
         \/ (~ (f_kind f <> KNone /\ f_id f = Some id) /\ (exists e, r = NotFound e) /\ ev = [EOpen n; EClose n]))
    end.
Proof.
  intros fs m path garbage errno errno' id G WA F L. destruct (name_ok garbage true id G F L) as (buf & EN & SO).
  assert (OP : forall e0, exists ev, open_by_id fs path garbage true id e0 = Ok (ev, snd (first_open fs e0 (id_names path id)), match snd (first_open fs e0 (id_names path id)) with None => if fst (first_open fs e0 (id_names path id)) =? ENOENT then 0 else fst (first_open fs e0 (id_names path id)) | Some _ => fst (first_open fs e0 (id_names path id)) end) /\ ev = match snd (first_open fs e0 (id_names path id)) with Some (n, _) => [EOpen n] | None => [] end).
  { intros e0. unfold open_by_id. replace ((zlen id <? 3) || (64 <? zlen id)) with false by lia. rewrite EN. cbn [obind]. rewrite SO. destruct (by_dirs_ok fs (build_id_dir ++ hex2 (hd 0 id) ++ [SLASH] ++ hexes (tl id) ++ dot_debug) (split_colon [] path) e0) as (ev & E & EV). rewrite E. exists ev. split; [reflexivity|exact EV]. }
  assert (FO : forall ns e n f, snd (first_open fs e ns) = Some (n, f) -> fs n = Opened f).
  { induction ns as [|x ns IH]; intros e n f X; cbn [first_open] in X; [discriminate|]. destruct (fs x) as [e'|f'] eqn:FX; [exact (IH e' n f X)|]. cbn in X. injection X as <- <-. exact FX. }
  assert (EE : forall l, (if l =? ENOENT then 0 else l) = 0 <-> l = 0 \/ l = ENOENT) by (intros l; destruct (l =? ENOENT) eqn:E; unfold ENOENT in *; lia).
  unfold wanted in WA. unfold by_build_id. destruct (m_dw m) as [[alt|]|] eqn:DW; [|discriminate|].
  - injection WA as ->. cbn [is_some]. destruct (OP errno) as (ev & -> & EV). cbn [obind]. destruct (snd (first_open fs errno (id_names path id))) as [(n & f)|] eqn:S.
    + apply FO in S. subst ev. destruct (f_kind f) eqn:K.
      * do 2 eexists. split; [reflexivity|]. split; [exact S|]. right. split; [intros (X & _); congruence|]. split; [eexists; reflexivity|reflexivity].
      * destruct (has_id f id) eqn:H; do 2 eexists; (split; [reflexivity|]; split; [exact S|]).
        -- left. split; [discriminate|]. split; [apply has_ok; exact H|]. exists true. auto.
        -- right. split; [intros (_ & X); apply has_ok in X; congruence|]. split; [eexists; reflexivity|reflexivity].
      * destruct (has_id f id) eqn:H; do 2 eexists; (split; [reflexivity|]; split; [exact S|]).
        -- left. split; [discriminate|]. split; [apply has_ok; exact H|]. exists false. auto.
        -- right. split; [intros (_ & X); apply has_ok in X; congruence|]. split; [eexists; reflexivity|reflexivity].
    + subst ev. do 2 eexists. split; [reflexivity|]. split; [reflexivity|]. eexists. split; [reflexivity|]. apply EE.
  - rewrite WA. cbn [is_some]. destruct (OP 0) as (ev & -> & EV). cbn [obind]. destruct (snd (first_open fs 0 (id_names path id))) as [(n & f)|] eqn:S.
    + apply FO in S. subst ev. destruct (f_kind f) eqn:K.
      * do 2 eexists. split; [reflexivity|]. split; [exact S|]. right. split; [intros (X & _); congruence|]. split; [eexists; reflexivity|reflexivity].
      * destruct (has_id f id) eqn:H; do 2 eexists; (split; [reflexivity|]; split; [exact S|]).
        -- left. split; [discriminate|]. split; [apply has_ok; exact H|]. exists true. auto.
        -- right. split; [intros (_ & X); apply has_ok in X; congruence|]. split; [eexists; reflexivity|reflexivity].
      * destruct (has_id f id) eqn:H; do 2 eexists; (split; [reflexivity|]; split; [exact S|]).
        -- left. split; [discriminate|]. split; [apply has_ok; exact H|]. exists false. auto.
        -- right. split; [intros (_ & X); apply has_ok in X; congruence|]. split; [eexists; reflexivity|reflexivity].
    + subst ev. do 2 eexists. split; [reflexivity|]. split; [reflexivity|]. eexists. split; [reflexivity|]. apply EE.
Qed.
Print Assumptions C84_by_id.
Definition ex_id_name : bytes := root ++ build_id_dir ++ [48; 49; 47; 48; 50; 48; 51; 48; 52] ++ dot_debug.
Example C84_by_id_nonvacuous : id_names ex_path [1; 2; 3; 4] = [ex_id_name] /\ by_build_id (fs_of [(ex_id_name, Opened good)]) (Modl None (Some [1; 2; 3; 4])) ex_path (repeat 0 147) 0 0 = Ok ([EOpen ex_id_name], Found ex_id_name good true).
Proof. vm_compute. auto. Qed.

(* whatever is found belongs to the module: it has its build ID, or without one, it is not the main
   file and has the checksum unless the user or the main file gave none to compare *)
Theorem C84_sound : forall fs m path garbage errno errno' file_name canon link crc ev n f fd, zlen garbage = 147 -> (forall id, wanted m = Some id -> bytes_ok id) ->
  standard_find fs m path garbage errno errno' file_name canon link crc = Ok (ev, Found n f fd) ->
  fs n = Opened f /\
  match m_dw m, m_id m with
  | Some alt, _ => alt <> None /\ f_kind f <> KNone /\ f_id f = alt
  | None, Some id => f_kind f <> KNone /\ f_id f = Some id
  | None, None => f_main f = false /\ (f_crc f = Some crc \/ link = None \/ crc = 0 \/ exists p, In p (split_colon [] (snd (whole path))) /\ fst (signed (fst (whole path)) p) = false)
  end.
Proof.
  intros fs m path garbage errno errno' file_name canon link crc ev n f fd G OK E.
  assert (SR : forall fn c ev' r', find_in_path fs m path fn c crc = Ok (ev', r') -> c = link -> r' = Found n f fd -> fs n = Opened f /\
     match m_dw m, m_id m with
     | Some alt, _ => alt <> None /\ f_kind f <> KNone /\ f_id f = alt
     | None, Some id => f_kind f <> KNone /\ f_id f = Some id
     | None, None => f_main f = false /\ (f_crc f = Some crc \/ link = None \/ crc = 0 \/ exists p, In p (split_colon [] (snd (whole path))) /\ fst (signed (fst (whole path)) p) = false)
     end).
  { intros fn c ev' r' FP -> ->. destruct (C84_path fs m path fn link crc) as (ev2 & r2 & FP2 & H). rewrite FP in FP2. injection FP2 as <- <-.
    assert (X : forall can def ps gr s, same (Found n f fd) s -> search fs m crc can def gr ps s -> fs n = Opened f /\ f_main f = false /\ exists p, In p ps /\ right m f (fst (signed def p) && can) crc) by (intros can def ps gr s -> S; exact (search_sound _ _ _ _ _ _ _ _ _ S)).
    assert (Y : forall can ps, fs n = Opened f /\ f_main f = false /\ (exists p, In p ps /\ right m f (fst (signed (fst (whole path)) p) && can) crc) -> (can = true \/ link = None \/ crc = 0) -> ps = split_colon [] (snd (whole path)) -> fs n = Opened f /\
       match m_dw m, m_id m with
       | Some alt, _ => alt <> None /\ f_kind f <> KNone /\ f_id f = alt
       | None, Some id => f_kind f <> KNone /\ f_id f = Some id
       | None, None => f_main f = false /\ (f_crc f = Some crc \/ link = None \/ crc = 0 \/ exists p, In p (split_colon [] (snd (whole path))) /\ fst (signed (fst (whole path)) p) = false)
       end).
    { intros can ps (A & B & p & I & R) C ->. split; [exact A|]. unfold right in R. destruct (m_dw m) as [[alt|]|]; [destruct R; split; [discriminate|auto]|destruct R|]. destruct (m_id m) as [id|]; [exact R|]. split; [exact B|]. destruct (fst (signed (fst (whole path)) p)) eqn:SG; [|right; right; right; exists p; auto]. destruct C as [-> | [-> | ->]]; auto. }
    destruct link as [l|].
    - destruct H as (s & SM & SE). eapply Y; [exact (X _ _ _ _ _ SM SE)| |reflexivity]. destruct (crc =? 0) eqn:C0; [right; right; lia|left; reflexivity].
    - destruct fn as [fn|]; [|discriminate H]. destruct (is_some (m_dw m)); [discriminate H|]. destruct H as (s & SM & SE). eapply Y; [exact (X _ _ _ _ _ SM SE)|auto|reflexivity]. }
  unfold standard_find in E.
  assert (BI : forall ev' r', by_build_id fs m path garbage errno errno' = Ok (ev', r') -> r' = Found n f fd -> m_id m <> None -> fs n = Opened f /\
     match m_dw m, m_id m with
     | Some alt, _ => alt <> None /\ f_kind f <> KNone /\ f_id f = alt
     | None, Some id => f_kind f <> KNone /\ f_id f = Some id
     | None, None => f_main f = false /\ (f_crc f = Some crc \/ link = None \/ crc = 0 \/ exists p, In p (split_colon [] (snd (whole path))) /\ fst (signed (fst (whole path)) p) = false)
     end).
  { intros ev' r' B -> NI. destruct (wanted m) as [id|] eqn:WA.
    - destruct (Z_le_dec 3 (zlen id)) as [L3|L3]; [destruct (Z_le_dec (zlen id) 64) as [L64|L64]|].
      + destruct (C84_by_id fs m path garbage errno errno' id G WA (OK id eq_refl) ltac:(lia)) as (ev2 & r2 & B2 & H). rewrite B in B2. injection B2 as <- <-. destruct (snd (first_open fs (if is_some (m_dw m) then errno else 0) (id_names path id))) as [(n' & f')|].
        * destruct H as (A & [(K & I & fd' & R & _)|(_ & (e & R) & _)]); [|discriminate R]. injection R as <- <- <-. split; [exact A|]. unfold wanted in WA. destruct (m_dw m) as [alt|]; [subst alt; split; [discriminate|auto]|]. rewrite WA. auto.
        * destruct H as (_ & e & R & _). discriminate R.
      + exfalso. unfold wanted in WA. unfold by_build_id, open_by_id in B. destruct (m_dw m) as [[alt|]|]; [injection WA as ->|discriminate|rewrite WA in B]; replace ((zlen id <? 3) || (64 <? zlen id)) with true in B by lia; discriminate B.
      + exfalso. unfold wanted in WA. unfold by_build_id, open_by_id in B. destruct (m_dw m) as [[alt|]|]; [injection WA as ->|discriminate|rewrite WA in B]; replace ((zlen id <? 3) || (64 <? zlen id)) with true in B by lia; discriminate B.
    - exfalso. unfold wanted in WA. unfold by_build_id in B. destruct (m_dw m) as [[alt|]|]; [discriminate|discriminate|congruence]. }
  assert (TAIL : forall ev1, (' (ev2, r2) <- find_in_path fs m path file_name link crc ;; match r2, file_name, canon with | NotFound 0, Some n, Some c => if beq n c then Ok (ev1 ++ ev2, r2) else ' (ev3, r3) <- find_in_path fs m path (Some c) link crc ;; Ok (ev1 ++ ev2 ++ ev3, r3) | _, _, _ => Ok (ev1 ++ ev2, r2) end) = Ok (ev, Found n f fd) -> fs n = Opened f /\
     match m_dw m, m_id m with
     | Some alt, _ => alt <> None /\ f_kind f <> KNone /\ f_id f = alt
     | None, Some id => f_kind f <> KNone /\ f_id f = Some id
     | None, None => f_main f = false /\ (f_crc f = Some crc \/ link = None \/ crc = 0 \/ exists p, In p (split_colon [] (snd (whole path))) /\ fst (signed (fst (whole path)) p) = false)
     end).
  { intros ev1 T. destruct (find_in_path fs m path file_name link crc) as [[ev2 r2]| | |] eqn:FP; try discriminate. cbn [obind] in T.
    assert (S1 : Ok (ev1 ++ ev2, r2) = Ok (ev, Found n f fd) -> r2 = Found n f fd) by congruence.
    destruct r2 as [e|n2 f2 fd2]; [|apply (SR _ _ _ _ FP eq_refl); apply S1; destruct file_name, canon; exact T].
    destruct e; try (destruct file_name, canon; discriminate T). destruct file_name as [fn|]; [|discriminate T]. destruct canon as [c|]; [|discriminate T]. destruct (beq fn c); [discriminate T|]. destruct (find_in_path fs m path (Some c) link crc) as [[ev3 r3]| | |] eqn:FP3; try discriminate. cbn [obind] in T. apply (SR _ _ _ _ FP3 eq_refl). congruence. }
  destruct (m_id m) as [mid|] eqn:MI.
  - destruct (by_build_id fs m path garbage errno errno') as [[ev1 r1]| | |] eqn:B; try discriminate. cbn [obind] in E. destruct r1 as [e|n1 f1 fd1].
    + destruct (negb (e =? 0)); [discriminate E|]. exact (TAIL ev1 E).
    + apply (BI ev1 (Found n1 f1 fd1) eq_refl); [congruence|discriminate].
  - cbn [obind] in E. change (negb (0 =? 0)) with false in E. exact (TAIL [] E).
Qed.
Print Assumptions C84_sound.
Example C84_sound_nonvacuous : standard_find (fs_of [(ex_id_name, Opened bad); ([47; 97; 47; 98; 47; 120; 47; 99; 46; 100], Opened good)]) (Modl None (Some [1; 2; 3; 4])) ex_path (repeat 0 147) 0 0 (Some main_name) (Some main_name) (Some dbg) 0
  = Ok ([EOpen ex_id_name; EClose ex_id_name; EOpen [47; 97; 47; 98; 47; 120; 47; 99; 46; 100]], Found [47; 97; 47; 98; 47; 120; 47; 99; 46; 100] good true).
Proof. vm_compute. reflexivity. Qed.

(* descriptors: every file that is opened is closed once, but for the one that is given back *)
Definition pairs (ev : list event) : Prop := exists l, ev = flat_map (fun n => [EOpen n; EClose n]) l.
Definition tidy (ev : list event) (r : result) : Prop := match r with NotFound _ => pairs ev | Found n _ fd => fd = true /\ exists ev', pairs ev' /\ ev = ev' ++ [EOpen n] end.
Lemma pairs_nil : pairs [].
Proof. exists []. reflexivity. Qed.
Lemma pairs_app : forall a b, pairs a -> pairs b -> pairs (a ++ b).
Proof. intros a b (l & ->) (l' & ->). exists (l ++ l'). symmetry. apply flat_map_app. Qed.
Lemma pairs_one : forall n, pairs [EOpen n; EClose n].
Proof. intros n. exists [n]. reflexivity. Qed.
Lemma try_tidy : forall fs d s l ev r, try_open fs d s l = (ev, r) -> match r with inl _ => pairs ev | inr (n, _) => ev = [EOpen n] end.
Proof. intros fs d s l ev r E. unfold try_open in E. destruct (fs (join d s l)) as [e|f]; [injection E as <- <-; apply pairs_nil|]. destruct (f_main f); injection E as <- <-; [apply pairs_one|reflexivity]. Qed.
Definition tidy_step (ev : list event) (s : step) : Prop := match s with Next | Stop _ => pairs ev | Done n _ fd => fd = true /\ exists ev', pairs ev' /\ ev = ev' ++ [EOpen n] end.
Lemma accept_tidy : forall m check crc ev n f ev' s, m_dw m = None -> m_id m = None -> pairs ev -> accept m check crc (ev ++ [EOpen n]) n f = (ev', s) -> tidy_step ev' s.
Proof.
  intros m check crc ev n f ev' s D I P E. unfold accept, validate in E. rewrite D, I in E. destruct (negb check || match f_crc f with Some c => c =? crc | None => false end); injection E as <- <-; cbn [tidy_step].
  - split; [reflexivity|]. exists ev. rewrite app_nil_r. auto.
  - cbn [app]. rewrite <- app_assoc. apply pairs_app; [exact P|apply pairs_one].
Qed.
Lemma attempt_tidy : forall fuel fs m link linknull base check crc special dir sub file tb ev s, m_dw m = None -> m_id m = None ->
  attempt fuel fs m link linknull base check crc special dir sub file tb = Ok (ev, s) -> tidy_step ev s.
Proof.
  induction fuel as [|fuel IH]; intros fs m link linknull base check crc special dir sub file tb ev s D I E; [discriminate|]. cbn [attempt] in E. rewrite D in E. cbn [is_some andb] in E.
  assert (K : forall ev1 r1, (match r1 with inl _ => pairs ev1 | inr (n, _) => exists p, pairs p /\ ev1 = p ++ [EOpen n] end) ->
    match r1 with
    | inr (n, f) => Ok (accept m check crc ev1 n f)
    | inl e => if absent e then match sub with None => Ok (ev1, Next) | Some s => match after_slash s with Some [] => Ok (ev1, Next) | sub' => ' (ev', r) <- attempt fuel fs m link linknull base check crc special dir sub' link linknull ;; Ok (ev1 ++ ev', r) end end else Ok (ev1, Stop e)
    end = Ok (ev, s) -> tidy_step ev s).
  { intros ev1 [e|(n & f)] P X.
    - destruct (absent e); [|injection X as <- <-; exact P]. destruct sub as [s0|]; [|injection X as <- <-; exact P].
      assert (N : forall sub', (' (ev', r) <- attempt fuel fs m link linknull base check crc special dir sub' link linknull ;; Ok (ev1 ++ ev', r)) = Ok (ev, s) -> tidy_step ev s).
      { intros sub' Y. destruct (attempt fuel fs m link linknull base check crc special dir sub' link linknull) as [[ev' r]| | |] eqn:A; try discriminate. cbn [obind] in Y. injection Y as <- <-. apply IH in A; [|exact D|exact I]. destruct r as [|e'|n f fd]; cbn [tidy_step] in *; [apply pairs_app; assumption|apply pairs_app; assumption|]. destruct A as (-> & p & PP & ->). split; [reflexivity|]. exists (ev1 ++ p). split; [apply pairs_app; assumption|apply app_assoc]. }
      destruct (after_slash s0) as [[|x r]|]; [injection X as <- <-; exact P|exact (N _ X)|exact (N _ X)].
    - destruct P as (p & PP & ->). injection X as X. exact (accept_tidy _ _ _ _ _ _ _ _ D I PP X). }
  destruct (try_open fs dir sub file) as [ev0 r0] eqn:T0. apply try_tidy in T0. destruct r0 as [e0|(n0 & f0)].
  - destruct tb; [|exact (K ev0 (inl e0) T0 E)]. destruct (try_open fs dir sub base) as [ev2 r2] eqn:T2. apply try_tidy in T2. apply (K (ev0 ++ ev2) r2); [|exact E]. destruct r2 as [e2|(n2 & f2)]; [apply pairs_app; assumption|]. subst ev2. exists ev0. auto.
  - subst ev0. apply (K [EOpen n0] (inr (n0, f0))); [|exact E]. exists []. split; [apply pairs_nil|reflexivity].
Qed.
Lemma element_tidy : forall fs m dirname link linknull base def can crc p ev s, m_dw m = None -> m_id m = None -> element fs m dirname link linknull base def can crc p = Ok (ev, s) -> tidy_step ev s.
Proof.
  intros fs m dirname link linknull base def can crc p ev s D I E. unfold element in E. destruct (match p with | [] => (def, p) | c :: r => if (c =? PLUS) || (c =? MINUS) then (c =? PLUS, r) else (def, p) end) as [check q]. rewrite D in E. destruct q as [|c q]; [exact (attempt_tidy _ _ _ _ _ _ _ _ _ _ _ _ _ _ _ D I E)|]. destruct (c =? SLASH); [|exact (attempt_tidy _ _ _ _ _ _ _ _ _ _ _ _ _ _ _ D I E)].
  assert (NX : Ok ([], Next) = Ok (ev, s) -> tidy_step ev s) by (intros X; injection X as <- <-; apply pairs_nil). destruct dirname as [[|d dn]|]; [exact (NX E)| |exact (NX E)]. destruct (d =? SLASH); [|exact (NX E)]. destruct (after_slash (d :: dn)) as [[|x r]|]; [exact (NX E)|exact (attempt_tidy _ _ _ _ _ _ _ _ _ _ _ _ _ _ _ D I E)|exact (attempt_tidy _ _ _ _ _ _ _ _ _ _ _ _ _ _ _ D I E)].
Qed.
(* in a search by name for a module without a build ID, every descriptor is closed once but the one
   that is given back, which is open.  Missing: modules with a build ID, see the next two *)
Theorem C84_fd_partial : forall fs m path file_name link crc ev r, m_dw m = None -> m_id m = None -> find_in_path fs m path file_name link crc = Ok (ev, r) -> tidy ev r.
Proof.
  intros fs m path file_name link crc ev r D I E.
  assert (K : forall dirname link linknull base def can ps ev r, elements fs m dirname link linknull base def can crc ps = Ok (ev, r) -> tidy ev r).
  { clear E. intros dirname l linknull base def can. induction ps as [|p ps IH]; intros ev' r' E; cbn [elements] in E; [injection E as <- <-; apply pairs_nil|]. destruct (element fs m dirname l linknull base def can crc p) as [[ev1 s]| | |] eqn:EL; try discriminate. cbn [obind] in E. apply element_tidy in EL; [|exact D|exact I]. destruct s as [|e|n f fd].
    - destruct (elements fs m dirname l linknull base def can crc ps) as [[ev2 r2]| | |]; try discriminate. cbn [obind] in E. injection E as <- <-. specialize (IH ev2 r2 eq_refl). cbn [tidy_step] in EL. destruct r2 as [e|n f fd]; cbn [tidy] in *; [apply pairs_app; assumption|]. destruct IH as (-> & p' & PP & ->). split; [reflexivity|]. exists (ev1 ++ p'). split; [apply pairs_app; assumption|apply app_assoc].
    - injection E as <- <-. exact EL.
    - injection E as <- <-. exact EL. }
  unfold find_in_path in E. destruct (match path with | [] => (true, path) | c :: r => if (c =? MINUS) || (c =? PLUS) then (c =? PLUS, r) else (true, path) end) as [def p]. assert (NX : Ok ([], NotFound 0) = Ok (ev, r) -> tidy ev r) by (intros X; injection X as <- <-; apply pairs_nil). rewrite D in E. cbn [is_some] in E. destruct link as [l|]; [exact (K _ _ _ _ _ _ _ _ _ E)|]. destruct file_name as [n|]; cbn [option_map] in E; [exact (K _ _ _ _ _ _ _ _ _ E)|exact (NX E)].
Qed.
Print Assumptions C84_fd_partial.
Example C84_fd_partial_nonvacuous : tidy [EOpen [1]; EClose [1]; EOpen [2]] (Found [2] good true) /\ ~ tidy [EOpen [1]; EClose [1]; EClose [1]] (NotFound 0).
Proof.
  split; [split; [reflexivity|]; exists [EOpen [1]; EClose [1]]; split; [apply pairs_one|reflexivity]|]. intros ([|x [|y l]] & E); cbn in E; discriminate E.
Qed.
(* a file that does not have the build ID of the module is closed twice: validate closes its
   descriptor and the caller does it again *)
Theorem C84_fd_refuted : exists fs m path file_name link ev, find_in_path fs m path file_name link 0 = Ok (ev, NotFound 0) /\ ev = [EOpen [47; 97; 47; 98; 47; 99; 46; 100]; EClose [47; 97; 47; 98; 47; 99; 46; 100]; EClose [47; 97; 47; 98; 47; 99; 46; 100]].
Proof. exists (fs_of [([47; 97; 47; 98; 47; 99; 46; 100], Opened bad)]), (Modl None (Some [1; 2; 3; 4])), [], (Some main_name), (Some dbg). eexists. split; [vm_compute; reflexivity|reflexivity]. Qed.
Print Assumptions C84_fd_refuted.
(* for a compressed file that is found by name, the descriptor given back is already closed *)
Theorem C84_fd_packed_refuted : exists fs m path file_name link n f, find_in_path fs m path file_name link 0 = Ok ([EOpen n; EClose n], Found n f false).
Proof. exists (fs_of [([47; 97; 47; 98; 47; 99; 46; 100], Opened (File false KPacked None (Some [1; 2; 3; 4])))]), (Modl None (Some [1; 2; 3; 4])), [], (Some main_name), (Some dbg), [47; 97; 47; 98; 47; 99; 46; 100], (File false KPacked None (Some [1; 2; 3; 4])). vm_compute. reflexivity. Qed.
Print Assumptions C84_fd_packed_refuted.
(* the absolute directories of the path are not searched for a file in the root directory: with the
   path "/u", the file /u/c.d is not found for /c *)
Theorem C84_root_refuted : exists fs, fs [47; 117; 47; 99; 46; 100] = Opened good /\ find_in_path fs (Modl None None) root (Some [47; 99]) (Some dbg) 77 = Ok ([], NotFound 0).
Proof. exists (fs_of [([47; 117; 47; 99; 46; 100], Opened good)]). vm_compute. auto. Qed.
Print Assumptions C84_root_refuted.
(* a wrong file in an earlier directory hides the right one: only the first file of the name by
   build ID is examined *)
Theorem C84_hidden_refuted : exists fs n n', fs n = Opened bad /\ fs n' = Opened good /\ id_names [47; 117; 58; 47; 118] [1; 2; 3; 4] = [n; n'] /\ by_build_id fs (Modl None (Some [1; 2; 3; 4])) [47; 117; 58; 47; 118] (repeat 0 147) 0 0 = Ok ([EOpen n; EClose n], NotFound 0).
Proof. exists (fs_of [(ex_id_name, Opened bad); ([47; 118] ++ skipn 2 ex_id_name, Opened good)]), ex_id_name, ([47; 118] ++ skipn 2 ex_id_name). vm_compute. auto. Qed.
Print Assumptions C84_hidden_refuted.

(* the search goes on by name if there is no build ID or nothing is found by it without an error;
   and with the real name of the main file if there is nothing under its given name *)
Definition by_name (fs : bytes -> answer) (m : modl) (path n l : bytes) (crc : Z) (s : ending) : Prop :=
  search fs m crc (negb (crc =? 0)) (fst (whole path)) (groups (is_some (m_dw m)) (dir_of n) l false (base_of n)) (split_colon [] (snd (whole path))) s.
Theorem C84_order : forall fs m path garbage errno errno' n c l crc ev0 r0,
  (match m_id m with Some _ => by_build_id fs m path garbage errno errno' | None => Ok ([], NotFound 0) end) = Ok (ev0, r0) ->
  exists ev r, standard_find fs m path garbage errno errno' (Some n) (Some c) (Some l) crc = Ok (ev, r) /\
    (r0 <> NotFound 0 -> r = r0) /\
    (r0 = NotFound 0 -> exists s, by_name fs m path n l crc s /\ (s <> SNone 0 \/ n = c -> same r s) /\ (s = SNone 0 -> n <> c -> exists s', by_name fs m path c l crc s' /\ same r s')).
Proof.
  intros fs m path garbage errno errno' n c l crc ev0 r0 B. unfold standard_find. rewrite B. cbn [obind]. destruct r0 as [e|n0 f0 fd0]; [|do 2 eexists; split; [reflexivity|]; split; [reflexivity|discriminate]].
  destruct (e =? 0) eqn:E0; cbn [negb]; [|do 2 eexists; split; [reflexivity|]; split; [reflexivity|intros X; injection X as ->; discriminate]]. apply Z.eqb_eq in E0. subst e.
  destruct (C84_path fs m path (Some n) (Some l) crc) as (ev1 & r1 & -> & s1 & S1 & N1). cbn [obind].
  assert (ST : forall ev : list event, (s1 <> SNone 0 \/ n = c) -> exists ev' r, Ok (ev, r1) = Ok (ev', r) /\ (NotFound 0 <> NotFound 0 -> r = NotFound 0) /\ (NotFound 0 = NotFound 0 -> exists s, by_name fs m path n l crc s /\ (s <> SNone 0 \/ n = c -> same r s) /\ (s = SNone 0 -> n <> c -> exists s', by_name fs m path c l crc s' /\ same r s'))).
  { intros ev H. do 2 eexists. split; [reflexivity|]. split; [congruence|]. intros _. exists s1. split; [exact N1|]. split; [intros _; exact S1|]. intros X Y. destruct H; congruence. }
  destruct r1 as [e|n1 f1 fd1]; [|apply ST; left; cbn in S1; congruence]. cbn [same] in S1. destruct e as [|e|e]; [|apply ST; left; congruence|apply ST; left; congruence]. destruct (beq n c) eqn:BE; [apply beq_ok in BE; apply ST; right; exact BE|].
  destruct (C84_path fs m path (Some c) (Some l) crc) as (ev2 & r2 & -> & s2 & S2 & N2). cbn [obind]. do 2 eexists. split; [reflexivity|]. split; [congruence|]. intros _. exists s1. split; [exact N1|]. split; [intros [X|X]; [congruence|subst c; rewrite (proj2 (beq_ok n n) eq_refl) in BE; discriminate]|]. intros _ _. exists s2. auto.
Qed.
Print Assumptions C84_order.
Example C84_order_nonvacuous : standard_find (fs_of [([47; 97; 47; 98; 47; 99; 46; 100], Opened good)]) (Modl None None) [] (repeat 0 147) 0 0 (Some [47; 108]) (Some main_name) (Some dbg) 77 = Ok ([EOpen [47; 97; 47; 98; 47; 99; 46; 100]], Found [47; 97; 47; 98; 47; 99; 46; 100] good true).
Proof. vm_compute. reflexivity. Qed.

(* The two functions on text that the statements above use: a byte is written as two lower-case hexadecimal digits, and
   the elements of a path are what lies between its colons. *)
Definition digits : bytes := [48; 49; 50; 51; 52; 53; 54; 55; 56; 57; 97; 98; 99; 100; 101; 102].
Fixpoint join (l : list bytes) : bytes := match l with [] => [] | [x] => x | x :: r => x ++ 58 :: join r end.
Lemma split_cons : forall s c, exists x r, split_colon c s = x :: r.
Proof. induction s as [|a s IH]; intros c; cbn [split_colon]; [eauto|]. destruct (a =? COLON); eauto. Qed.
Theorem C84_text : (forall b, is_u8 b -> map Some (hex2 b) = [znth digits (b / 16); znth digits (b mod 16)]) /\
  (forall path, join (split_colon [] path) = path /\ Forall (fun p => ~ In 58 p) (split_colon [] path)).
Proof.
  split.
  - assert (D : forall d, 0 <= d < 16 -> Some (hex1 d) = znth digits d).
    { intros d H. assert (d = 0 \/ d = 1 \/ d = 2 \/ d = 3 \/ d = 4 \/ d = 5 \/ d = 6 \/ d = 7 \/ d = 8 \/ d = 9 \/ d = 10 \/ d = 11 \/ d = 12 \/ d = 13 \/ d = 14 \/ d = 15) as X by lia.
      repeat (destruct X as [-> | X]; [reflexivity|]). subst d. reflexivity. }
    intros b B. unfold is_u8 in B. cbn [hex2 map]. rewrite <- !D; [reflexivity|pose proof (Z.mod_pos_bound b 16 ltac:(lia)); lia|].
    split; [apply Z.div_pos; lia|apply Z.div_lt_upper_bound; lia].
  - assert (G : forall path cur, ~ In 58 cur -> join (split_colon cur path) = cur ++ path /\ Forall (fun p => ~ In 58 p) (split_colon cur path)).
    { induction path as [|c path IH]; intros cur N; cbn [split_colon]; [rewrite app_nil_r; split; [reflexivity|constructor; [exact N|constructor]]|].
      destruct (c =? COLON) eqn:E.
      - apply Z.eqb_eq in E. subst c. destruct (IH [] (fun x => x)) as [J F]. split; [|constructor; [exact N|exact F]].
        destruct (split_cons path []) as (x & r & S). cbn [join]. rewrite S. rewrite S in J. rewrite J. reflexivity.
      - apply Z.eqb_neq in E. destruct (IH (cur ++ [c])) as [J F].
        { rewrite in_app_iff. intros [X|[X|[]]]; [exact (N X)|]. apply E. unfold COLON. exact X. }
        rewrite <- app_assoc in J. split; [exact J|exact F]. }
    intros path. apply (G path []). auto.
Qed.
Print Assumptions C84_text.
Example C84_text_nonvacuous : hex2 175 = [97; 102] /\ split_colon [] [47; 97; 58; 58; 98] = [[47; 97]; []; [98]].
Proof. split; reflexivity. Qed.
