(* C34: the computed length of an attribute value.  C49: the value readers. *)
From Verif Require Import Base LebModel LebSpec LebProof DwModel Slice CfiSpec CfiProof CfiSafe FormModel FormSpec.

Definition params_of (u : cu) : params := Params (u_fle u) (u_asize u) (u_osize u) (u_ver u).
Definition sizes_ok (u : cu) : Prop := (u_asize u = 4 \/ u_asize u = 8) /\ (u_osize u = 4 \/ u_osize u = 8).
Lemma fixed_pos : forall u form w, sizes_ok u -> In (form, w) (fixed_width (params_of u)) -> 1 <= w <= 8.
Proof.
  intros u form w (A & O) H. cbn in H.
  repeat (destruct H as [H|H]; [injection H as <- <-; try destruct (u_ver u =? 2); lia|]). destruct H.
Qed.
Lemma left_eq : forall u p, p <= u_endp u < two63 -> 0 <= p -> u64 (u_endp u - p) = u_endp u - p.
Proof. intros u p H P. apply Z.mod_small. lia. Qed.
Lemma memchr0_found : forall s rest mem p n fuel, Forall (fun c => c <> 0) s -> at_ mem p (s ++ [0] ++ rest) -> zlen s < n -> (length s <= fuel)%nat ->
  memchr0 fuel mem p n = Ok (Some (p + zlen s)).
Proof.
  induction s as [|c s IH]; intros rest mem p n fuel F A N L.
  - cbn [app] in A. destruct fuel; cbn [memchr0]; change (zlen []) with 0 in *; (replace (n <=? 0) with false by lia);
      pose proof (byte_at_at _ _ _ _ A) as B; unfold CfiModel.byte_at in B; destruct (znth mem p) as [x|]; try discriminate; injection B as ->; cbn [Z.eqb];
      rewrite Z.add_0_r; reflexivity.
  - cbn [app] in A. pose proof (byte_at_at _ _ _ _ A) as B. unfold CfiModel.byte_at in B. rewrite zlen_cons in N |- *. pose proof (zlen_nonneg _ s).
    destruct fuel as [|fuel]; [cbn in L; lia|]. cbn [memchr0]. replace (n <=? 0) with false by lia.
    destruct (znth mem p) as [x|]; [|discriminate]. injection B as ->. pose proof (Forall_inv F) as C. cbn beta in C.
    replace (c =? 0) with false by lia. rewrite (IH rest mem (p + 1) (n - 1) fuel (Forall_inv_tail F) (at_shift _ _ _ _ A) ltac:(lia)) by (cbn in L; lia).
    do 2 f_equal. lia.
Qed.

Lemma val_len_ok : forall m form v b, holds m form v b -> forall u p fuel, m = params_of u -> sizes_ok u -> at_ (u_mem u) p b ->
  p + zlen b <= u_endp u < two63 -> u_endp u - p < two32 -> (Z.to_nat (zlen (u_mem u) - p) < fuel)%nat ->
  form_val_len fuel u form p = Ok (zlen b).
Proof.
  induction 1 as [form w n W V|b L|form n b K U|n b S| | |b L|b L|b L|form b x F U|s F|form v x b U FB FN H IH];
    intros u p fuel -> SZ A E S32 FU; pose proof (at_bound _ _ _ A) as [P PM]; (destruct fuel as [|fuel]; [lia|]);
    cbn [form_val_len]; pose proof (zlen_nonneg _ (u_mem u)).
  - pose proof (fixed_pos u form w SZ W) as WP. rewrite zlen_enc in * by lia. rewrite left_eq by lia.
    assert (u_endp u - p <? w = false) as LT by lia. cbn in W.
    repeat (destruct W as [W|W]; [injection W as <- <-; cbn; rewrite LT; reflexivity|]). destruct W.
  - rewrite left_eq by lia. cbn. replace (u_endp u - p <? 16) with false by lia. rewrite L. reflexivity.
  - pose proof (zlen_nonneg _ b). rewrite left_eq by lia. pose proof (uleb_at _ _ (u_endp u) _ _ U A ltac:(lia)) as G.
    assert (u_endp u - p <? p + zlen b - p = false) as LT by lia.
    cbn in K. repeat (destruct K as [<- | K]; [cbn; rewrite G; cbn [obind]; rewrite LT; f_equal; lia|]). destruct K.
  - pose proof (zlen_nonneg _ b). rewrite left_eq by lia. destruct S as (C & L & V). 
    assert (exists v', get_uleb128 (u_mem u) p (u_endp u) = Ok (v', p + zlen b)) as [v' G].
    { rewrite <- (app_nil_r b) in A. apply at_split in A as (pre & post & M & <-). cbn [app] in M. rewrite M. eexists. apply get_uleb128_correct; [exact C|lia|lia]. }
    cbn. rewrite G. cbn [obind]. replace (u_endp u - p <? p + zlen b - p) with false by lia. f_equal. lia.
  - rewrite left_eq by (cbn in E; lia). cbn in E |- *. replace (u_endp u - p <? 0) with false by lia. reflexivity.
  - rewrite left_eq by (cbn in E; lia). cbn in E |- *. replace (u_endp u - p <? 0) with false by lia. reflexivity.
  - rewrite zlen_app, zlen_enc in * by lia. pose proof (zlen_nonneg _ b). rewrite left_eq by lia.
    assert (R : rd (u_fle u) (u_mem u) p 1 = Ok (zlen b)) by (apply rd_at; [lia|change (256 ^ 1) with 256; lia|exact (at_app1 _ _ _ _ A)]).
    replace (1 + zlen b) with (zlen b + 1) by lia. cbn. replace (u_endp u - p <? 1) with false by lia. rewrite R. cbn [obind]. replace (u_endp u - p <? zlen b + 1) with false by lia. reflexivity.
  - rewrite zlen_app, zlen_enc in * by lia. pose proof (zlen_nonneg _ b). rewrite left_eq by lia.
    assert (R : rd (u_fle u) (u_mem u) p 2 = Ok (zlen b)) by (apply rd_at; [lia|change (256 ^ 2) with 65536; lia|exact (at_app1 _ _ _ _ A)]).
    replace (2 + zlen b) with (zlen b + 2) by lia. cbn. replace (u_endp u - p <? 2) with false by lia. rewrite R. cbn [obind]. replace (u_endp u - p <? zlen b + 2) with false by lia. reflexivity.
  - rewrite zlen_app, zlen_enc in * by lia. pose proof (zlen_nonneg _ b). rewrite left_eq by lia.
    assert (R : rd (u_fle u) (u_mem u) p 4 = Ok (zlen b)) by (apply rd_at; [lia|change (256 ^ 4) with two32; lia|exact (at_app1 _ _ _ _ A)]).
    replace (4 + zlen b) with (zlen b + 4) by lia. cbn. replace (u_endp u - p <? 4) with false by lia. rewrite R. cbn [obind].
    unfold u32. rewrite Z.mod_small by lia. replace (u_endp u - p <? zlen b + 4) with false by lia. reflexivity.
  - rewrite zlen_app in *. pose proof (zlen_nonneg _ b). pose proof (uleb_len _ _ U). rewrite left_eq by lia.
    pose proof (uleb_at _ _ (u_endp u) _ _ U (at_app1 _ _ _ _ A) ltac:(lia)) as G.
    assert (u64 (zlen b + (p + zlen x - p)) = zlen x + zlen b) as EQ by (unfold u64; rewrite Z.mod_small; lia).
    destruct F as [-> | ->]; cbn; rewrite G; cbn [obind]; rewrite EQ; replace (u_endp u - p <? zlen x + zlen b) with false by lia; reflexivity.
  - pose proof (zlen_nonneg _ s). assert (zlen (s ++ [0]) = zlen s + 1) as ZL by (rewrite zlen_app; reflexivity). rewrite ZL in *. rewrite left_eq by lia.
    assert (M : memchr0 (S (length (u_mem u))) (u_mem u) p (u_endp u - p) = Ok (Some (p + zlen s))).
    { apply (memchr0_found s []); [exact F|exact A|lia|unfold zlen in *; lia]. }
    remember (S (length (u_mem u))) as ff eqn:FF. cbn. rewrite M. cbn [obind]. replace (u_endp u - p <? p + zlen s - p + 1) with false by lia. f_equal. lia.
  - rewrite zlen_app in *. pose proof (zlen_nonneg _ b). pose proof (uleb_len _ _ U). rewrite left_eq by lia.
    pose proof (uleb_at _ _ (u_endp u) _ _ U (at_app1 _ _ _ _ A) ltac:(lia)) as G. pose proof (uleb_of_nonneg _ _ U) as FP.
    cbn. rewrite G. cbn [obind]. unfold u32. rewrite Z.mod_small by lia.
    rewrite (IH u (p + zlen x) fuel eq_refl SZ (at_app2 _ _ _ _ A)) by lia. cbn [obind].
    replace (zlen b =? 18446744073709551615) with false by lia. unfold u64. rewrite Z.mod_small by lia.
    replace (u_endp u - p <? zlen b + (p + zlen x - p)) with false by lia. apply (f_equal (@Ok Z)). lia.
Qed.

(* A value of any form, anywhere in a unit of less than 4 GiB, has the length its bytes
   have. *)
Theorem C34_size_partial : forall u form v b p, sizes_ok u -> u_endp u < two63 ->
  holds (params_of u) form v b -> at_ (u_mem u) p b -> p + zlen b <= u_endp u -> u_endp u - p < two32 ->
  val_len u form p = Ok (zlen b).
Proof.
  intros u form v b p SZ EM H A E S32. pose proof (at_bound _ _ _ A) as [P PM]. unfold val_len.
  apply (val_len_ok _ _ _ _ H u p); try assumption; try reflexivity; try lia. unfold zlen. lia.
Qed.
Print Assumptions C34_size_partial.
(* One value of every kind of length computation in one unit: address, block2, exprloc,
   string, indirect udata. *)
Definition ex_mem : bytes :=
  [1; 2; 3; 4; 5; 6; 7; 8;  3; 0; 9; 9; 9;  130; 0; 7; 7;  72; 105; 0;  15; 229; 142; 38].
Definition ex_cu : cu := Cu ex_mem 0 (zlen ex_mem) 8 4 4 true.
Example C34_size_nonvacuous :
  val_len ex_cu FORM_addr 0 = Ok 8 /\ val_len ex_cu FORM_block2 8 = Ok 5 /\ val_len ex_cu FORM_exprloc 13 = Ok 4 /\
  val_len ex_cu FORM_string 17 = Ok 3 /\ val_len ex_cu FORM_indirect 20 = Ok 4 /\
  holds (params_of ex_cu) FORM_exprloc (Bytes [7; 7]) ([130; 0] ++ [7; 7]) /\
  holds (params_of ex_cu) FORM_indirect (Unsigned 624485) ([15] ++ [229; 142; 38]) /\
  at_ (u_mem ex_cu) 13 ([130; 0] ++ [7; 7]) /\ at_ (u_mem ex_cu) 20 ([15] ++ [229; 142; 38]).
Proof.
  do 5 (split; [vm_compute; reflexivity|]). 
  split; [apply H_block; [right; reflexivity|split; [cbn; lia|split; [cbn; lia|split; [reflexivity|cbn; lia]]]]|].
  split; [apply H_indirect with (form := 15); [split; [cbn; lia|split; [cbn; lia|split; [reflexivity|cbn; lia]]]|lia|lia|
    apply H_uleb; [left; reflexivity|split; [cbn; lia|split; [cbn; lia|split; [reflexivity|cbn; lia]]]]]|].
  split; (split; [lia|split; [vm_compute; discriminate|reflexivity]]).
Qed.

(* ------------------------------------------------------------------ *)
(* Whatever the bytes are: an accepted length stays inside the unit. *)
Lemma uleb_gt : forall mem p e v q, bytes_ok mem -> 0 <= p -> e <= zlen mem -> get_uleb128 mem p e = Ok (v, q) -> p < q.
Proof.
  intros mem p e v q B P E H. destruct (Z_lt_le_dec p (zlen mem)) as [L|L].
  - destruct (uleb_any mem p e B ltac:(lia) E) as (v' & q' & G & _ & Q & _). rewrite G in H. injection H as <- <-. exact Q.
  - unfold get_uleb128, uleb_step in H. rewrite znth_out in H by lia. discriminate.
Qed.
Lemma memchr0_range : forall fuel mem p n e, memchr0 fuel mem p n = Ok (Some e) -> p <= e.
Proof.
  induction fuel as [|k IH]; intros mem p n e H; cbn [memchr0] in H; destruct (n <=? 0); try discriminate;
    destruct (znth mem p) as [x|]; try discriminate; destruct (x =? 0); try discriminate.
  - injection H as <-. lia.
  - injection H as <-. lia.
  - apply IH in H. lia.
Qed.
Lemma checked_ok : forall left r n, (if left <? r then Err DWARF_E_INVALID_DWARF else Ok r) = Ok n -> n = r /\ r <= left.
Proof. intros left r n H. destruct (left <? r) eqn:E; [discriminate|]. injection H as <-. split; [reflexivity|lia]. Qed.
Lemma fixed_len_range : forall form, let len := if form <? size_form_lengths then form_lengths form else 0 in
  (len =? 0) = false -> 0 <= Z.land len 127 <= 16.
Proof.
  intros form. cbn zeta. destruct (form <? size_form_lengths); [|discriminate]. unfold form_lengths.
  repeat match goal with |- context [if ?c then _ else _] => destruct c end; intros H; try discriminate; vm_compute; split; discriminate.
Qed.
Theorem C34_inside : forall u form p n, bytes_ok (u_mem u) -> sizes_ok u ->
  0 <= p <= u_endp u -> u_endp u <= zlen (u_mem u) -> zlen (u_mem u) < two63 ->
  val_len u form p = Ok n -> 0 <= n /\ p + n <= u_endp u.
Proof.
  intros u form p n B (SA & SO) P E M H. unfold val_len in H. cbn [form_val_len] in H. rewrite left_eq in H by lia.
  pose proof (fixed_len_range form) as FL. cbn zeta in FL, H.
  destruct ((if form <? size_form_lengths then form_lengths form else 0) =? 0) eqn:E0; cbn [negb] in H.
  2:{ apply checked_ok in H as [-> L]. specialize (FL eq_refl). lia. }
  clear FL.
  destruct (form =? FORM_addr); [apply checked_ok in H as [-> L]; lia|].
  destruct (form =? FORM_ref_addr); [apply checked_ok in H as [-> L]; destruct (u_ver u =? 2); lia|].
  destruct ((form =? FORM_strp) || _ || _ || _ || _ || _); [apply checked_ok in H as [-> L]; lia|].
  destruct (form =? FORM_block1).
  { destruct (_ <? 1); [discriminate|]. destruct (rd (u_fle u) (u_mem u) p 1) as [v| | |] eqn:R; try discriminate.
    apply (rd_bound _ _ _ _ _ B) in R; [|lia]. apply checked_ok in H as [-> L]. lia. }
  destruct (form =? FORM_block2).
  { destruct (_ <? 2); [discriminate|]. destruct (rd (u_fle u) (u_mem u) p 2) as [v| | |] eqn:R; try discriminate.
    apply (rd_bound _ _ _ _ _ B) in R; [|lia]. apply checked_ok in H as [-> L]. lia. }
  destruct (form =? FORM_block4).
  { destruct (_ <? 4); [discriminate|]. destruct (rd (u_fle u) (u_mem u) p 4) as [v| | |] eqn:R; try discriminate.
    apply checked_ok in H as [-> L]. pose proof (Z.mod_pos_bound (v + 4) two32 ltac:(lia)). unfold u32 in *. lia. }
  destruct ((form =? FORM_block) || _).
  { destruct (get_uleb128 _ _ _) as [[v q]| | |] eqn:G; try discriminate. cbn [obind] in H.
    apply checked_ok in H as [-> L]. pose proof (u64_bound (v + (q - p))). lia. }
  destruct (form =? FORM_string).
  { destruct (memchr0 _ _ _ _) as [[e|]| | |] eqn:G; try discriminate. cbn [obind] in H. apply memchr0_range in G.
    apply checked_ok in H as [-> L]. lia. }
  destruct ((form =? FORM_sdata) || _ || _ || _ || _ || _ || _ || _ || _).
  { destruct (get_uleb128 _ _ _) as [[v q]| | |] eqn:G; try discriminate. cbn [obind] in H.
    apply uleb_gt in G; [|exact B|lia|lia]. apply checked_ok in H as [-> L]. lia. }
  destruct (form =? FORM_indirect); [|discriminate].
  destruct (get_uleb128 _ _ _) as [[v q]| | |] eqn:G; try discriminate. cbn [obind] in H.
  destruct (form_val_len _ _ _ _) as [r| | |]; try discriminate. cbn [obind] in H. destruct (r =? two64 - 1); [discriminate|].
  apply checked_ok in H as [-> L]. pose proof (u64_bound (r + (q - p))). lia.
Qed.
Print Assumptions C34_inside.
Example C34_inside_nonvacuous : val_len ex_cu FORM_block1 8 = Ok 4 /\ val_len ex_cu FORM_data8 17 = Err DWARF_E_INVALID_DWARF /\
  val_len ex_cu 2 0 = Err DWARF_E_INVALID_DWARF.
Proof. vm_compute. repeat split; reflexivity. Qed.

(* Computing a length always ends. *)
Lemma memchr0_ends : forall fuel mem p n, 0 <= p -> (Z.to_nat (zlen mem - p) <= fuel)%nat -> memchr0 fuel mem p n <> Fuel.
Proof.
  induction fuel as [|k IH]; intros mem p n P F; cbn [memchr0]; destruct (n <=? 0); try discriminate.
  - rewrite znth_out by lia. discriminate.
  - destruct (Z_lt_le_dec p (zlen mem)) as [L|L].
    + destruct (znth_in _ mem p ltac:(lia)) as [x ->]. destruct (x =? 0); [discriminate|]. apply IH; lia.
    + rewrite znth_out by lia. discriminate.
Qed.
Lemma uleb_no_fuel : forall mem p e, get_uleb128 mem p e <> Fuel.
Proof.
  intros mem p e. unfold get_uleb128.
  assert (U : forall n acc q i, uleb_loop mem n acc q i <> Fuel).
  { induction n as [|n IH]; intros acc q i; cbn [uleb_loop]; [discriminate|]. unfold uleb_step. destruct (znth mem q); [|discriminate].
    destruct (Z.land z 128 =? 0); cbn [obind]; [discriminate|apply IH]. }
  unfold uleb_step. destruct (znth mem p); [|discriminate]. destruct (Z.land z 128 =? 0); cbn [obind]; [discriminate|apply U].
Qed.
Lemma val_len_ends : forall fuel u form p, bytes_ok (u_mem u) -> u_endp u <= zlen (u_mem u) -> 0 <= p ->
  (Z.to_nat (zlen (u_mem u) - p) < fuel)%nat -> form_val_len fuel u form p <> Fuel.
Proof.
  induction fuel as [|k IH]; intros u form p B E P F; [lia|]. cbn [form_val_len].
  assert (CH : forall left r, (if left <? r then Err DWARF_E_INVALID_DWARF else Ok r) <> @Fuel Z) by (intros l r; destruct (l <? r); discriminate).
  assert (RD : forall n, rd (u_fle u) (u_mem u) p n <> Fuel) by (intros n; unfold rd; destruct (_ && _); discriminate).
  pose proof (uleb_no_fuel (u_mem u) p (u_endp u)) as UF.
  destruct (negb _); [apply CH|].
  destruct (form =? FORM_addr); [apply CH|]. destruct (form =? FORM_ref_addr); [apply CH|].
  destruct ((form =? FORM_strp) || _ || _ || _ || _ || _); [apply CH|].
  destruct (form =? FORM_block1). { destruct (_ <? 1); [discriminate|]. specialize (RD 1). destruct (rd _ _ _ _); try discriminate; [apply CH|exact RD]. }
  destruct (form =? FORM_block2). { destruct (_ <? 2); [discriminate|]. specialize (RD 2). destruct (rd _ _ _ _); try discriminate; [apply CH|exact RD]. }
  destruct (form =? FORM_block4). { destruct (_ <? 4); [discriminate|]. specialize (RD 4). destruct (rd _ _ _ _); try discriminate; [apply CH|exact RD]. }
  destruct ((form =? FORM_block) || _). { destruct (get_uleb128 _ _ _) as [[v q]| | |]; try discriminate; [apply CH|destruct (UF eq_refl)]. }
  destruct (form =? FORM_string).
  { pose proof (memchr0_ends (S (length (u_mem u))) (u_mem u) p (u64 (u_endp u - p)) P ltac:(unfold zlen; lia)) as MF.
    destruct (memchr0 _ _ _ _) as [[e|]| | |]; try discriminate; [apply CH|destruct (MF eq_refl)]. }
  destruct ((form =? FORM_sdata) || _ || _ || _ || _ || _ || _ || _ || _).
  { destruct (get_uleb128 _ _ _) as [[v q]| | |]; try discriminate; [apply CH|destruct (UF eq_refl)]. }
  destruct (form =? FORM_indirect); [|discriminate].
  destruct (get_uleb128 _ _ _) as [[v q]| | |] eqn:G; try discriminate; [|destruct (UF eq_refl)]. cbn [obind].
  assert (p < zlen (u_mem u)) as PL.
  { destruct (Z_lt_le_dec p (zlen (u_mem u))) as [L|L]; [exact L|]. unfold get_uleb128, uleb_step in G. rewrite znth_out in G by lia. discriminate. }
  apply uleb_gt in G; [|exact B|lia|exact E]. pose proof (IH u (u32 v) q B E ltac:(lia) ltac:(lia)) as R.
  destruct (form_val_len k u (u32 v) q) as [r| | |]; try discriminate; [|destruct (R eq_refl)]. cbn [obind]. destruct (_ =? _); [discriminate|apply CH].
Qed.
Theorem C34_ends : forall u form p, bytes_ok (u_mem u) -> u_endp u <= zlen (u_mem u) -> 0 <= p -> val_len u form p <> Fuel.
Proof. intros u form p B E P. apply val_len_ends; try assumption. unfold zlen. lia. Qed.
Print Assumptions C34_ends.
Example C34_ends_nonvacuous : val_len (Cu (repeat 22 50 ++ [11; 3]) 0 52 8 4 4 true) FORM_indirect 0 = Ok 52.
Proof. vm_compute. reflexivity. Qed.

(* Nothing outside the unit's section is read for a value that starts in the unit, unless
   the form is DW_FORM_indirect; at the very end of the unit one more byte must be there. *)
Theorem C34_overread_partial : forall u form p, bytes_ok (u_mem u) -> sizes_ok u ->
  0 <= p <= u_endp u -> zlen (u_mem u) < two63 -> form <> FORM_indirect ->
  (p < u_endp u /\ u_endp u <= zlen (u_mem u) \/ u_endp u < zlen (u_mem u)) ->
  match val_len u form p with Ok _ | Err _ => True | UB | Fuel => False end.
Proof.
  intros u form p B (SA & SO) P M NI IN.
  assert (EM : u_endp u <= zlen (u_mem u)) by lia. assert (PM : p < zlen (u_mem u)) by lia.
  enough (N : val_len u form p <> UB) by (pose proof (C34_ends u form p B EM ltac:(lia)); destruct (val_len u form p); tauto).
  unfold val_len. cbn [form_val_len]. rewrite left_eq by lia.
  assert (CH : forall left r, (if left <? r then Err DWARF_E_INVALID_DWARF else Ok r) <> @UB Z) by (intros l r; destruct (l <? r); discriminate).
  destruct (uleb_any (u_mem u) p (u_endp u) B ltac:(lia) EM) as (v & q & G & _).
  destruct (negb _); [apply CH|].
  destruct (form =? FORM_addr); [apply CH|]. destruct (form =? FORM_ref_addr); [apply CH|].
  destruct ((form =? FORM_strp) || _ || _ || _ || _ || _); [apply CH|].
  destruct (form =? FORM_block1). { destruct (_ <? 1) eqn:L; [discriminate|]. rewrite rd_in by lia. apply CH. }
  destruct (form =? FORM_block2). { destruct (_ <? 2) eqn:L; [discriminate|]. rewrite rd_in by lia. apply CH. }
  destruct (form =? FORM_block4). { destruct (_ <? 4) eqn:L; [discriminate|]. rewrite rd_in by lia. apply CH. }
  destruct ((form =? FORM_block) || _). { rewrite G. apply CH. }
  destruct (form =? FORM_string).
  { assert (MU : forall fuel p n, 0 <= p -> p + n <= zlen (u_mem u) -> memchr0 fuel (u_mem u) p n <> UB).
    { induction fuel as [|k IH]; intros p' n P' L; cbn [memchr0]; destruct (n <=? 0) eqn:N0; try discriminate;
        destruct (znth_in _ (u_mem u) p' ltac:(lia)) as [x ->]; destruct (x =? 0); try discriminate. apply IH; lia. }
    specialize (MU (S (length (u_mem u))) p (u_endp u - p) ltac:(lia) ltac:(lia)).
    destruct (memchr0 _ _ _ _) as [[e|]| | |]; try discriminate; [apply CH|destruct (MU eq_refl)]. }
  destruct ((form =? FORM_sdata) || _ || _ || _ || _ || _ || _ || _ || _). { rewrite G. apply CH. }
  replace (form =? FORM_indirect) with false by lia. discriminate.
Qed.
Print Assumptions C34_overread_partial.
Example C34_overread_nonvacuous : val_len (Cu [1; 72; 105; 9] 0 3 8 4 4 true) FORM_string 1 = Err DWARF_E_INVALID_DWARF /\
  val_len (Cu [1; 72; 105; 9] 0 3 8 4 4 true) FORM_udata 3 = Err DWARF_E_INVALID_DWARF.
Proof. vm_compute. split; reflexivity. Qed.
(* At the end of the unit and the section the first byte of a LEB128 number is read outside;
   behind DW_FORM_indirect everything is, however many bytes follow the unit: here 5. *)
Theorem C34_overread_refuted :
  (exists u p, bytes_ok (u_mem u) /\ u_endp u = zlen (u_mem u) /\ p = u_endp u /\ val_len u FORM_udata p = UB) /\
  (exists u p, bytes_ok (u_mem u) /\ u_endp u + 5 = zlen (u_mem u) /\ p < u_endp u /\ val_len u FORM_indirect p = UB).
Proof.
  split.
  - exists (Cu [1] 0 1 8 4 4 true), 1. split; [repeat (constructor; [unfold is_u8; lia|]); constructor|]. repeat split; vm_compute; reflexivity.
  - exists (Cu [22; 22; 8; 65; 65; 65; 65] 0 2 8 4 4 true), 1. split; [repeat (constructor; [unfold is_u8; lia|]); constructor|].
    split; [reflexivity|]. split; [vm_compute; reflexivity|vm_compute; reflexivity].
Qed.
Print Assumptions C34_overread_refuted.

Lemma block_not_empty : forall m form v b, holds m form v b -> form = FORM_block -> b = [] -> False.
Proof.
  intros m form v b H FF EE. destruct H as [form w n W V|b L|form n b K U|n b S0| | |b L|b L|b L|form b x F U|s F|form v x b U FB FN H]; try discriminate.
  - subst form. cbn in W. repeat (destruct W as [W|W]; [discriminate|]). destruct W.
  - subst form. cbn in K. repeat (destruct K as [K|K]; [discriminate|]). destruct K.
  - destruct x; [|discriminate]. destruct U as [[] _].
Qed.
(* Values with an impossible length are accepted: a DW_FORM_block4 of 0xffffffff bytes is
   taken to be 3 bytes long, an unfinished DW_FORM_block no byte long. *)
Theorem C34_size_refuted :
  (exists u p n, bytes_ok (u_mem u) /\ sizes_ok u /\ 0 <= p /\ u_endp u <= zlen (u_mem u) /\
     val_len u FORM_block4 p = Ok n /\ n = 3 /\ fval (u_fle u) (zsub (u_mem u) p 4) = 4294967295) /\
  (exists u p n, bytes_ok (u_mem u) /\ sizes_ok u /\ 0 <= p /\ p < u_endp u <= zlen (u_mem u) /\
     val_len u FORM_block p = Ok n /\ n = 0 /\ forall v, ~ holds (params_of u) FORM_block v (zsub (u_mem u) p n)).
Proof.
  split.
  - exists (Cu [255; 255; 255; 255; 7] 0 5 8 4 4 true), 0, 3. split; [repeat (constructor; [unfold is_u8; lia|]); constructor|].
    split; [split; cbn; lia|]. split; [lia|]. split; [vm_compute; discriminate|]. split; [vm_compute; reflexivity|]. split; reflexivity.
  - exists (Cu [200] 0 1 8 4 4 true), 0, 0. split; [repeat (constructor; [unfold is_u8; lia|]); constructor|].
    split; [split; cbn; lia|]. split; [lia|]. split; [split; [reflexivity|vm_compute; discriminate]|]. split; [vm_compute; reflexivity|]. split; [reflexivity|].
    intros v H. exact (block_not_empty _ _ _ _ H eq_refl eq_refl).
Qed.
Print Assumptions C34_size_refuted.

(* The other way round: apart from the LEB128 forms, DW_FORM_block4 and DW_FORM_indirect, what
   is accepted is a value of its form; unknown forms are refused. *)
Lemma enc_fval : forall fle b, bytes_ok b -> enc fle (zlen b) (fval fle b) = b.
Proof.
  intros fle b B. unfold enc, fval, zlen. rewrite Nat2Z.id. destruct fle.
  - apply le_bytes_value, B.
  - apply be_bytes_value, B.
Qed.
Lemma zsub_join : forall A (l : list A) p a b, 0 <= p -> 0 <= a -> 0 <= b -> zsub l p (a + b) = zsub l p a ++ zsub l (p + a) b.
Proof.
  assert (FN : forall A n m (l : list A), firstn (n + m) l = firstn n l ++ firstn m (skipn n l)).
  { intros A. induction n as [|n IH]; intros m l; [reflexivity|]. destruct l as [|x l]; cbn; [destruct m; reflexivity|]. f_equal. apply IH. }
  assert (SK : forall A n m (l : list A), skipn m (skipn n l) = skipn (n + m) l).
  { intros A. induction n as [|n IH]; intros m l; [reflexivity|]. destruct l as [|x l]; cbn; [destruct m; reflexivity|apply IH]. }
  intros A l p a b P A0 B0. unfold zsub. rewrite !Z2Nat.inj_add by lia. rewrite FN, SK. reflexivity.
Qed.
Definition leb_forms : list Z := [9; 13; 15; 21; 24; 26; 27; 34; 35; 7937; 7938].
Lemma memchr0_string : forall fuel mem p n e, 0 <= p -> memchr0 fuel mem p n = Ok (Some e) ->
  p <= e < zlen mem /\ exists s, zsub mem p (e - p + 1) = s ++ [0] /\ Forall (fun c => c <> 0) s.
Proof.
  assert (Z1 : forall (mem : bytes) p x, 0 <= p -> znth mem p = Some x -> exists pre post, mem = pre ++ x :: post /\ zlen pre = p).
  { intros mem p x P X. unfold znth in X. destruct ((0 <=? p) && (p <? zlen mem)) eqn:Q; [|discriminate]. apply nth_error_split in X as (l1 & l2 & -> & L).
    exists l1, l2. split; [reflexivity|]. unfold zlen. lia. }
  assert (DONE : forall (mem : bytes) p, 0 <= p -> znth mem p = Some 0 -> p <= p < zlen mem /\ exists s, zsub mem p (p - p + 1) = s ++ [0] /\ Forall (fun c => c <> 0) s).
  { intros mem p P X. destruct (Z1 mem p 0 P X) as (pre & post & -> & <-). pose proof (zlen_nonneg _ post).
    split; [rewrite zlen_app, zlen_cons; lia|]. exists []. split; [|constructor]. 
    destruct (at_intro pre [0] post) as (_ & _ & AT). replace (zlen pre - zlen pre + 1) with (zlen [0]) by (cbn; lia). exact AT. }
  induction fuel as [|k IH]; intros mem p n e P H; cbn [memchr0] in H; destruct (n <=? 0); try discriminate;
    destruct (znth mem p) as [x|] eqn:X; try discriminate; destruct (x =? 0) eqn:X0; try discriminate.
  - injection H as <-. apply DONE; [exact P|]. rewrite X. f_equal. lia.
  - injection H as <-. apply DONE; [exact P|]. rewrite X. f_equal. lia.
  - apply IH in H as ((L1 & L2) & s & ES & FS); [|lia]. split; [lia|]. exists (x :: s). split; [|constructor; [lia|exact FS]].
    destruct (Z1 mem p x P X) as (pre & post & -> & <-). cbn [app]. rewrite <- ES. unfold zsub.
    replace (Z.to_nat (e - zlen pre + 1)) with (S (Z.to_nat (e - (zlen pre + 1) + 1))) by lia.
    replace (Z.to_nat (zlen pre)) with (length pre) by (unfold zlen; lia). replace (Z.to_nat (zlen pre + 1)) with (length pre + 1)%nat by (unfold zlen; lia).
    rewrite skipn_app, skipn_all, Nat.sub_diag. cbn [skipn app firstn]. f_equal.
    rewrite skipn_app, skipn_all2 by lia. replace (length pre + 1 - length pre)%nat with 1%nat by lia. reflexivity.
Qed.
(* The bytes of the computed length encode a value of the form; not for DW_FORM_block4, DW_FORM_indirect and the LEB128 forms, whose length may be wrong or may rest on a byte outside the unit (C34_size_refuted, C34_overread_refuted). *)
Theorem C34_exact_partial : forall u form p n, bytes_ok (u_mem u) -> sizes_ok u ->
  0 <= p <= u_endp u -> u_endp u <= zlen (u_mem u) -> zlen (u_mem u) < two63 ->
  form <> FORM_block4 -> form <> FORM_indirect -> ~ In form leb_forms ->
  val_len u form p = Ok n -> exists v, holds (params_of u) form v (zsub (u_mem u) p n).
Proof.
  intros u form p n B SZ P E M N4 NI NL H. pose proof SZ as (SA & SO).
  assert (FX : In (form, n) (fixed_width (params_of u)) -> p + n <= u_endp u -> exists v, holds (params_of u) form v (zsub (u_mem u) p n)).
  { intros I L. pose proof (fixed_pos u form n SZ I) as W. exists (Unsigned (fval (u_fle u) (zsub (u_mem u) p n))).
    assert (ZL : zlen (zsub (u_mem u) p n) = n) by (apply zsub_length; lia).
    pose proof (enc_fval (u_fle u) (zsub (u_mem u) p n) (bytes_ok_part _ _ _ B)) as EN. rewrite ZL in EN.
    rewrite <- EN at 2. apply H_fixed; [exact I|]. rewrite <- ZL at 3. apply fval_bound, bytes_ok_part, B. }
  assert (BL : forall k v, 0 <= k -> zlen (zsub (u_mem u) p k) = k -> rd (u_fle u) (u_mem u) p k = Ok v -> n = v + k -> 0 <= v -> p + n <= u_endp u ->
    zlen (zsub (u_mem u) (p + k) v) = v /\ zsub (u_mem u) p n = enc (u_fle u) k v ++ zsub (u_mem u) (p + k) v).
  { intros k v K ZL R -> V L. split; [apply zsub_length; lia|]. unfold rd in R. destruct ((0 <=? p) && _); [|discriminate]. injection R as <-.
    pose proof (enc_fval (u_fle u) (zsub (u_mem u) p k) (bytes_ok_part _ _ _ B)) as EN. rewrite ZL in EN. rewrite EN.
    rewrite Z.add_comm. apply zsub_join; lia. }
  pose proof (C34_inside u form p n B SZ P E M H) as (N0 & NE).
  unfold val_len in H. cbn [form_val_len] in H. rewrite left_eq in H by lia. cbn zeta in H.
  destruct (Z.eqb_spec form 1) as [->|N_1].
  { apply FX; [|exact NE]. cbn in H. apply checked_ok in H as [-> _]. cbn. tauto. }
  destruct (Z.eqb_spec form 5) as [->|N_5].
  { apply FX; [|exact NE]. cbn in H. apply checked_ok in H as [-> _]. cbn. tauto. }
  destruct (Z.eqb_spec form 6) as [->|N_6].
  { apply FX; [|exact NE]. cbn in H. apply checked_ok in H as [-> _]. cbn. tauto. }
  destruct (Z.eqb_spec form 7) as [->|N_7].
  { apply FX; [|exact NE]. cbn in H. apply checked_ok in H as [-> _]. cbn. tauto. }
  destruct (Z.eqb_spec form 11) as [->|N_11].
  { apply FX; [|exact NE]. cbn in H. apply checked_ok in H as [-> _]. cbn. tauto. }
  destruct (Z.eqb_spec form 12) as [->|N_12].
  { apply FX; [|exact NE]. cbn in H. apply checked_ok in H as [-> _]. cbn. tauto. }
  destruct (Z.eqb_spec form 14) as [->|N_14].
  { apply FX; [|exact NE]. cbn in H. apply checked_ok in H as [-> _]. cbn. tauto. }
  destruct (Z.eqb_spec form 16) as [->|N_16].
  { apply FX; [|exact NE]. cbn in H. apply checked_ok in H as [-> _]. cbn. tauto. }
  destruct (Z.eqb_spec form 17) as [->|N_17].
  { apply FX; [|exact NE]. cbn in H. apply checked_ok in H as [-> _]. cbn. tauto. }
  destruct (Z.eqb_spec form 18) as [->|N_18].
  { apply FX; [|exact NE]. cbn in H. apply checked_ok in H as [-> _]. cbn. tauto. }
  destruct (Z.eqb_spec form 19) as [->|N_19].
  { apply FX; [|exact NE]. cbn in H. apply checked_ok in H as [-> _]. cbn. tauto. }
  destruct (Z.eqb_spec form 20) as [->|N_20].
  { apply FX; [|exact NE]. cbn in H. apply checked_ok in H as [-> _]. cbn. tauto. }
  destruct (Z.eqb_spec form 23) as [->|N_23].
  { apply FX; [|exact NE]. cbn in H. apply checked_ok in H as [-> _]. cbn. tauto. }
  destruct (Z.eqb_spec form 28) as [->|N_28].
  { apply FX; [|exact NE]. cbn in H. apply checked_ok in H as [-> _]. cbn. tauto. }
  destruct (Z.eqb_spec form 29) as [->|N_29].
  { apply FX; [|exact NE]. cbn in H. apply checked_ok in H as [-> _]. cbn. tauto. }
  destruct (Z.eqb_spec form 31) as [->|N_31].
  { apply FX; [|exact NE]. cbn in H. apply checked_ok in H as [-> _]. cbn. tauto. }
  destruct (Z.eqb_spec form 32) as [->|N_32].
  { apply FX; [|exact NE]. cbn in H. apply checked_ok in H as [-> _]. cbn. tauto. }
  destruct (Z.eqb_spec form 36) as [->|N_36].
  { apply FX; [|exact NE]. cbn in H. apply checked_ok in H as [-> _]. cbn. tauto. }
  destruct (Z.eqb_spec form 37) as [->|N_37].
  { apply FX; [|exact NE]. cbn in H. apply checked_ok in H as [-> _]. cbn. tauto. }
  destruct (Z.eqb_spec form 38) as [->|N_38].
  { apply FX; [|exact NE]. cbn in H. apply checked_ok in H as [-> _]. cbn. tauto. }
  destruct (Z.eqb_spec form 39) as [->|N_39].
  { apply FX; [|exact NE]. cbn in H. apply checked_ok in H as [-> _]. cbn. tauto. }
  destruct (Z.eqb_spec form 40) as [->|N_40].
  { apply FX; [|exact NE]. cbn in H. apply checked_ok in H as [-> _]. cbn. tauto. }
  destruct (Z.eqb_spec form 41) as [->|N_41].
  { apply FX; [|exact NE]. cbn in H. apply checked_ok in H as [-> _]. cbn. tauto. }
  destruct (Z.eqb_spec form 42) as [->|N_42].
  { apply FX; [|exact NE]. cbn in H. apply checked_ok in H as [-> _]. cbn. tauto. }
  destruct (Z.eqb_spec form 43) as [->|N_43].
  { apply FX; [|exact NE]. cbn in H. apply checked_ok in H as [-> _]. cbn. tauto. }
  destruct (Z.eqb_spec form 44) as [->|N_44].
  { apply FX; [|exact NE]. cbn in H. apply checked_ok in H as [-> _]. cbn. tauto. }
  destruct (Z.eqb_spec form 7968) as [->|N_7968].
  { apply FX; [|exact NE]. cbn in H. apply checked_ok in H as [-> _]. cbn. tauto. }
  destruct (Z.eqb_spec form 7969) as [->|N_7969].
  { apply FX; [|exact NE]. cbn in H. apply checked_ok in H as [-> _]. cbn. tauto. }
  destruct (Z.eqb_spec form 25) as [->|N_25]. { cbn in H. apply checked_ok in H as [-> _]. exists Present. apply H_present. }
  destruct (Z.eqb_spec form 33) as [->|N_33]. { cbn in H. apply checked_ok in H as [-> _]. exists Present. apply H_implicit. }
  destruct (Z.eqb_spec form 30) as [->|N_30]. { cbn in H. apply checked_ok in H as [-> _]. eexists. apply H_data16. rewrite zsub_length; lia. }
  destruct (Z.eqb_spec form 10) as [->|N_10].
  { cbn in H. destruct (_ <? 1) eqn:L; [discriminate|]. destruct (rd (u_fle u) (u_mem u) p 1) as [v| | |] eqn:R; try discriminate. cbn [obind] in H.
    apply checked_ok in H as [-> _]. pose proof (rd_bound _ _ _ 1 _ B ltac:(lia) R) as V. 
    destruct (BL 1 v ltac:(lia) ltac:(apply zsub_length; lia) R eq_refl ltac:(lia) NE) as [ZL ->]. eexists. rewrite <- ZL at 1. apply H_block1. rewrite ZL. lia. }
  destruct (Z.eqb_spec form 3) as [->|N_3].
  { cbn in H. destruct (_ <? 2) eqn:L; [discriminate|]. destruct (rd (u_fle u) (u_mem u) p 2) as [v| | |] eqn:R; try discriminate. cbn [obind] in H.
    apply checked_ok in H as [-> _]. pose proof (rd_bound _ _ _ 2 _ B ltac:(lia) R) as V. change (256 ^ 2) with 65536 in V.
    destruct (BL 2 v ltac:(lia) ltac:(apply zsub_length; lia) R eq_refl ltac:(lia) NE) as [ZL ->]. eexists. rewrite <- ZL at 1. apply H_block2. rewrite ZL. lia. }
  destruct (Z.eqb_spec form 8) as [->|N_8].
  { remember (S (length (u_mem u))) as ff eqn:FF. cbn in H. destruct (memchr0 _ _ _ _) as [[e|]| | |] eqn:G; try discriminate. cbn [obind] in H.
    apply checked_ok in H as [-> _]. apply memchr0_string in G as (_ & s & -> & FS); [|lia]. exists (Text s). apply H_string, FS. }
  exfalso. unfold form_lengths, FORM_addr, FORM_block2, FORM_block4, FORM_data2, FORM_data4, FORM_data8, FORM_string, FORM_block, FORM_block1, FORM_data1,
    FORM_flag, FORM_sdata, FORM_strp, FORM_udata, FORM_ref_addr, FORM_ref1, FORM_ref2, FORM_ref4, FORM_ref8, FORM_ref_udata, FORM_indirect,
    FORM_sec_offset, FORM_exprloc, FORM_flag_present, FORM_strx, FORM_addrx, FORM_ref_sup4, FORM_strp_sup, FORM_data16, FORM_line_strp,
    FORM_ref_sig8, FORM_implicit_const, FORM_loclistx, FORM_rnglistx, FORM_ref_sup8, FORM_strx1, FORM_strx2, FORM_strx3, FORM_strx4,
    FORM_addrx1, FORM_addrx2, FORM_addrx3, FORM_addrx4, FORM_GNU_addr_index, FORM_GNU_str_index, FORM_GNU_ref_alt, FORM_GNU_strp_alt in *.
  assert (ND : forall k, In k leb_forms -> (form =? k) = false) by (intros k K; apply Z.eqb_neq; intros ->; apply NL, K).
  rewrite (ND 9) in H by (cbn; tauto).
  rewrite (ND 13) in H by (cbn; tauto).
  rewrite (ND 15) in H by (cbn; tauto).
  rewrite (ND 21) in H by (cbn; tauto).
  rewrite (ND 24) in H by (cbn; tauto).
  rewrite (ND 26) in H by (cbn; tauto).
  rewrite (ND 27) in H by (cbn; tauto).
  rewrite (ND 34) in H by (cbn; tauto).
  rewrite (ND 35) in H by (cbn; tauto).
  rewrite (ND 7937) in H by (cbn; tauto).
  rewrite (ND 7938) in H by (cbn; tauto).
  rewrite (proj2 (Z.eqb_neq form 1)) in H by assumption. rewrite (proj2 (Z.eqb_neq form 5)) in H by assumption. rewrite (proj2 (Z.eqb_neq form 6)) in H by assumption. rewrite (proj2 (Z.eqb_neq form 7)) in H by assumption. rewrite (proj2 (Z.eqb_neq form 11)) in H by assumption. rewrite (proj2 (Z.eqb_neq form 12)) in H by assumption. rewrite (proj2 (Z.eqb_neq form 14)) in H by assumption. rewrite (proj2 (Z.eqb_neq form 16)) in H by assumption. rewrite (proj2 (Z.eqb_neq form 17)) in H by assumption. rewrite (proj2 (Z.eqb_neq form 18)) in H by assumption. rewrite (proj2 (Z.eqb_neq form 19)) in H by assumption. rewrite (proj2 (Z.eqb_neq form 20)) in H by assumption. rewrite (proj2 (Z.eqb_neq form 23)) in H by assumption. rewrite (proj2 (Z.eqb_neq form 28)) in H by assumption. rewrite (proj2 (Z.eqb_neq form 29)) in H by assumption. rewrite (proj2 (Z.eqb_neq form 31)) in H by assumption. rewrite (proj2 (Z.eqb_neq form 32)) in H by assumption. rewrite (proj2 (Z.eqb_neq form 36)) in H by assumption. rewrite (proj2 (Z.eqb_neq form 37)) in H by assumption. rewrite (proj2 (Z.eqb_neq form 38)) in H by assumption. rewrite (proj2 (Z.eqb_neq form 39)) in H by assumption. rewrite (proj2 (Z.eqb_neq form 40)) in H by assumption. rewrite (proj2 (Z.eqb_neq form 41)) in H by assumption. rewrite (proj2 (Z.eqb_neq form 42)) in H by assumption. rewrite (proj2 (Z.eqb_neq form 43)) in H by assumption. rewrite (proj2 (Z.eqb_neq form 44)) in H by assumption. rewrite (proj2 (Z.eqb_neq form 7968)) in H by assumption. rewrite (proj2 (Z.eqb_neq form 7969)) in H by assumption. rewrite (proj2 (Z.eqb_neq form 25)) in H by assumption. rewrite (proj2 (Z.eqb_neq form 33)) in H by assumption. rewrite (proj2 (Z.eqb_neq form 30)) in H by assumption. rewrite (proj2 (Z.eqb_neq form 10)) in H by assumption. rewrite (proj2 (Z.eqb_neq form 3)) in H by assumption. rewrite (proj2 (Z.eqb_neq form 8)) in H by assumption. rewrite (proj2 (Z.eqb_neq form 4)) in H by assumption. rewrite (proj2 (Z.eqb_neq form 22)) in H by assumption.
  cbn [orb] in H. destruct (form <? size_form_lengths); discriminate.
Qed.
Print Assumptions C34_exact_partial.
Example C34_exact_nonvacuous : val_len ex_cu FORM_block2 8 = Ok 5 /\ val_len ex_cu FORM_string 17 = Ok 3 /\ ~ In FORM_string leb_forms.
Proof. split; [vm_compute; reflexivity|]. split; [vm_compute; reflexivity|]. intros K; cbn in K. unfold FORM_string in K. lia. Qed.
