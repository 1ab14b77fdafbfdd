(* C98: the index that ranlib writes. *)
From Verif Require Import Base LebModel HashModel HashSpec Slice ArModel ArSpec ArProof ArProps RanModel RanSpec RanProof.

(* For every archive of padded members with at most one index that has symbols and stays below 4 GB: the new file has the same members, in order, except for the index, which comes first;
   elf_getarsym, on the file mapped or not, gives every symbol of every member, in order, with the place where the bytes of its member are in the new file. *)
Theorem C98_index_partial : forall l ws date, walks 8 l ws -> (length (filter a_index l) <= 1)%nat -> 0 <= date < 10 ^ 12 ->
  Forall (fun m => Forall cstring (a_syms m)) l -> concat (map a_syms (others l)) <> [] -> 69 + zlen (index 4 (placed 8 (others l))) + zlen (body (others l)) < 2 ^ 32 ->
  exists new idx, ranlib (magic ++ body l) ws date = Rnew new /\ new = magic ++ idx ++ body (others l) /\ zlen idx mod 2 = 0 /\
    (forall mapped, fst (getarsym (whole mapped new) None) = Ok (map (fun s => Sym (Some (fst s)) (snd s) (abi_hash (fst s))) (placed (8 + zlen idx) (others l)) ++ [Sym None 0 (two64 - 1)])) /\
    map fst (placed (8 + zlen idx) (others l)) = concat (map a_syms (others l)) /\
    (forall s o, In (s, o) (placed (8 + zlen idx) (others l)) -> exists m, In m (others l) /\ In s (a_syms m) /\ at_ new o (a_bytes m)).
Proof.
  intros l ws date W L D CS NE B.
  assert (MF : forall k p, map fst (placed p k) = concat (map a_syms k)).
  { induction k as [|m k IH]; intros p; [reflexivity|]. cbn [placed map concat]. rewrite map_app, map_map, IH. cbn [fst]. rewrite map_id. reflexivity. }
  assert (P : placed 8 (others l) <> []). { intros E. apply NE. rewrite <- (MF _ 8), E. reflexivity. }
  destruct (ranlib_new l ws date W L D P B) as (h & mi & pad & H & HN & HD & HE & HP & HL & HR & HB).
  set (idx := h ++ m_data mi). assert (LI : zlen idx = 60 + zlen (m_data mi)) by (unfold idx; rewrite zlen_app; lia).
  set (new := magic ++ idx ++ body (others l)). exists new, idx. pose proof (zlen_nonneg _ (m_data mi)) as Zd. pose proof (zlen_nonneg _ (body (others l))) as Zb.
  assert (LN : zlen new = 68 + zlen (m_data mi) + zlen (body (others l))). { unfold new. rewrite !zlen_app, LI. change (zlen magic) with 8. lia. }
  replace (8 + zlen idx) with (68 + zlen (m_data mi)) by lia.
  split; [change magic with ARMAG; rewrite HR; unfold new, idx; rewrite <- !app_assoc; reflexivity|]. split; [reflexivity|].
  split; [rewrite LI; replace (60 + zlen (m_data mi)) with (zlen (m_data mi) + 30 * 2) by lia; rewrite Z.mod_add by lia; exact HE|].
  assert (FO : forall m, In m (others l) -> In m l) by (intros m Hm; apply filter_In in Hm; apply Hm).
  assert (B60 : forall k p wk, walks p k wk -> forall m, In m k -> 60 <= zlen (a_bytes m)).
  { induction k as [|x k IH]; intros p wk Wk m Hm; [destruct Hm|]. inversion Wk; subst. destruct Hm as [<- | Hm]; [unfold even in *; pose proof (Z.div_pos (w_size w + 1) 2); lia | eapply IH; eauto]. }
  split; [|split; [apply MF|]].
  - intros mapped.
    destruct (C26_exact_partial (whole mapped new) mi h 4 (placed (68 + zlen (m_data mi)) (others l)) pad) as (c & C & _).
    + unfold arc_ok, whole. cbn [r_so r_mx r_mem r_mapped]. rewrite LN. repeat split; try lia.
    + cbn [whole r_mem r_so]. unfold at_. split; [lia|]. fold idx. rewrite LI, LN. split; [lia|]. apply zsub_mid; [reflexivity | exact LI].
    + exact H.
    + left. auto.
    + exact HD.
    + cbn [whole r_mx]. lia.
    + rewrite Forall_forall. intros (s, o) Hs. cbn [fst snd]. split.
      * destruct (placed_at _ _ _ _ Hs) as (a & m & b & E & S & _). rewrite Forall_forall in CS. specialize (CS m). rewrite Forall_forall in CS. apply CS; [|exact S]. apply FO. rewrite E, in_app_iff. right. left. reflexivity.
      * apply placed_bound in Hs. change (256 ^ 4) with (2 ^ 32). lia.
    + cbn [whole r_mapped r_so r_mem]. destruct mapped.
      * intros E. apply NE. rewrite <- (MF _ (68 + zlen (m_data mi))), E. reflexivity.
      * rewrite LN. destruct (others l) as [|m k] eqn:E; [exfalso; apply NE; reflexivity|]. rewrite body_cons, zlen_app. pose proof (zlen_nonneg _ (body k)). pose proof (B60 l 8 ws W m (FO m (or_introl eq_refl))). lia.
    + rewrite C. reflexivity.
  - intros s o Hs. destruct (placed_at _ _ _ _ Hs) as (a & m & b & E & S & O). exists m. split; [rewrite E, in_app_iff; right; left; reflexivity|]. split; [exact S|].
    rewrite E, body_app, body_cons, !zlen_app in LN. pose proof (zlen_nonneg _ (body a)). pose proof (zlen_nonneg _ (body b)). unfold at_. split; [lia|]. split; [lia|].
    replace new with ((magic ++ idx ++ body a) ++ a_bytes m ++ body b) by (unfold new; rewrite E, body_app, body_cons, <- !app_assoc; reflexivity).
    apply zsub_mid; [rewrite !zlen_app, LI, O; change (zlen magic) with 8; lia | reflexivity].
Qed.
Print Assumptions C98_index_partial.

(* Members of 62, 64 and 60 bytes, the second being an old index; their contents do not matter *)
Definition arch : list amem := [Amem (repeat 1 62) false [[102]; [103; 104]]; Amem (repeat 2 64) true []; Amem (repeat 3 60) false [[105]]].
Definition arch_walk : list walk := [Walk 8 1 false [[102]; [103; 104]]; Walk 70 4 true []; Walk 134 0 false [[105]]].
Example C98_index_nonvacuous : walks 8 arch arch_walk /\ Forall (fun m => Forall cstring (a_syms m)) arch /\ concat (map a_syms (others arch)) = [[102]; [103; 104]; [105]] /\
  placed (8 + (60 + 24)) (others arch) = [([102], 92); ([103; 104], 92); ([105], 154)] /\
  match ranlib (magic ++ body arch) arch_walk 0 with Rnew new => fst (getarsym (whole true new) None) = Ok [Sym (Some [102]) 92 102; Sym (Some [103; 104]) 92 1752; Sym (Some [105]) 154 105; Sym None 0 (two64 - 1)] | _ => False end.
Proof.
  split; [repeat (apply W_cons; [reflexivity | cbn; lia | reflexivity | reflexivity | reflexivity | cbn [a_bytes]]); apply W_nil|].
  split; [repeat first [apply Forall_nil | apply Forall_cons | lia]|]. split; [reflexivity|]. split; vm_compute; reflexivity.
Qed.

(* Without symbols the members stay as they are, and no index is left, unless it is empty. *)
Theorem C98_none : forall l ws date, walks 8 l ws -> (length (filter a_index l) <= 1)%nat -> concat (map a_syms (others l)) = [] -> 8 + zlen (body (others l)) < 2 ^ 32 ->
  (ranlib (magic ++ body l) ws date = Rsame /\ (others l = l \/ exists i, In i l /\ a_index i = true /\ zlen (a_bytes i) = 60)) \/ ranlib (magic ++ body l) ws date = Rnew (magic ++ body (others l)).
Proof.
  intros l ws date W L NE B.
  assert (P : forall k p, concat (map a_syms k) = [] -> placed p k = []).
  { induction k as [|m k IH]; intros p H; [reflexivity|]. cbn [placed map concat] in *. apply app_eq_nil in H. destruct H as (-> & H). cbn. apply IH, H. }
  destruct (collect_all l ws W L B) as (ix & C & I). unfold ranlib. rewrite C, (P _ 8 NE). cbn [map concat names_end]. change (zlen (names_end [])) with 0. cbn [Z.eqb andb].
  pose proof (copied l ix I) as (K1 & K2). change ARMAG with magic in *. destruct ix as [(o, s)|].
  - destruct (s =? 0) eqn:S.
    + left. split; [reflexivity|]. destruct I as (a & i & b & E & _ & _ & Z & _ & Q). right. exists i. split; [rewrite E, in_app_iff; right; left; reflexivity|].
      split; [exact Q | replace s with 0 in Z by lia; exact Z].
    + right. rewrite K1. cbn [app]. do 2 f_equal. exact K2.
  - left. split; [reflexivity|]. left. exact I.
Qed.
Print Assumptions C98_none.
Example C98_none_nonvacuous : let l := [Amem (repeat 2 64) true []; Amem (repeat 3 60) false []] in let ws := [Walk 8 4 true []; Walk 72 0 false []] in
  walks 8 l ws /\ ranlib (magic ++ body l) ws 0 = Rnew (magic ++ repeat 3 60).
Proof. cbv zeta. split; [repeat (apply W_cons; [reflexivity | cbn; lia | reflexivity | reflexivity | reflexivity | cbn [a_bytes]]); apply W_nil | vm_compute; reflexivity]. Qed.

(* With two members that are an index only the last is taken away, and the other one, which stays, is not counted in the offsets: the symbol is said to be where that index is. *)
Theorem C98_twice_refuted : exists l ws new, walks 8 l ws /\ l = [Amem (repeat 2 64) true []; Amem (repeat 4 64) true []; Amem (repeat 3 60) false [[105]]] /\ ranlib (magic ++ body l) ws 0 = Rnew new /\
  fst (getarsym (whole true new) None) = Ok [Sym (Some [105]) 78 105; Sym None 0 (two64 - 1)] /\ at_ new 78 (repeat 2 64) /\ at_ new 142 (repeat 3 60).
Proof.
  eexists; exists [Walk 8 4 true []; Walk 72 4 true []; Walk 136 0 false [[105]]]; eexists. split; [|split; [reflexivity|]].
  - repeat (apply W_cons; [reflexivity | cbn; lia | reflexivity | reflexivity | reflexivity | cbn [a_bytes]]); apply W_nil.
  - split; [vm_compute; reflexivity|]. split; [vm_compute; reflexivity|]. split; (split; [lia|]; split; [vm_compute; discriminate | vm_compute; reflexivity]).
Qed.
Print Assumptions C98_twice_refuted.

(* An archive near 4 GB: the size of the index is added to the offset without a look at whether the sum fits, so that the offset wraps although the archive was not too large before. *)
Theorem C98_wrap_refuted : exists ws offs names, collect ws 8 None [] [] = Some (None, offs, names) /\ offs = [2 ^ 32 - 32] /\ disp offs names = 70 /\
  forall date, symsoff date offs names = ar_hdr date 10 ++ be_bytes 4 1 ++ be_bytes 4 38.
Proof. exists [Walk 8 (2 ^ 32 - 100) false []; Walk (2 ^ 32 - 32) 0 false [[102]]]. eexists; eexists. split; [vm_compute; reflexivity|]. split; [reflexivity|]. split; [reflexivity|]. intros date. unfold symsoff. f_equal. Qed.
Print Assumptions C98_wrap_refuted.
