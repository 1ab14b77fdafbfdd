(* Proofs about libasm section content. *)
From Verif Require Import Base LebModel LebSpec LebProof AsmModel AsmSpec.

Definition content (s : ascn) : list (option Z) := concat (map ab_data (as_blocks s)).

Definition block_ok (b : ablock) : Prop := zlen (ab_data b) <= ab_max b < 2 ^ 63.

Record awf (s : ascn) : Prop := {
  awf_blocks : Forall block_ok (as_blocks s);
  awf_off : as_offset s = zlen (content s)
}.

Definition yes : Z -> bool := fun _ => true.

(* same section, apart from blocks *)
Definition same_scn (s s' : ascn) : Prop :=
  as_nobits s' = as_nobits s /\ as_offset s' = as_offset s /\ as_align s' = as_align s /\
  as_pattern s' = as_pattern s /\ content s' = content s.

Lemma last_app_block : forall (l : list ablock) b d, last (l ++ [b]) d = b.
Proof. intros; apply last_last. Qed.

Lemma blocks_snoc : forall l : list ablock, l = [] \/ exists l' b, l = l' ++ [b].
Proof.
  intros l. destruct l as [|x l]; [now left|right].
  destruct (@exists_last _ (x :: l)) as (l' & b & E); [discriminate|]. eauto.
Qed.

Lemma ensure_ok : forall s len, awf s -> 0 <= len < 2 ^ 61 -> as_offset s < 2 ^ 62 ->
  exists s' l b, ensure_section_space yes s len = Ok s' /\ awf s' /\ same_scn s s' /\
    as_blocks s' = l ++ [b] /\ zlen (ab_data b) + len <= ab_max b.
Proof.
  intros s len W Hl Ho. unfold ensure_section_space, yes.
  assert (Hoff : 0 <= as_offset s) by (rewrite (awf_off _ W); apply zlen_nonneg).
  destruct (blocks_snoc (as_blocks s)) as [E|(l & b & E)].
  - rewrite E. unfold u64. rewrite Z.mod_small by lia.
    eexists _, [], _. split; [reflexivity|].
    assert (C : content s = []) by (unfold content; now rewrite E).
    repeat split; cbn [as_blocks as_offset as_nobits as_align as_pattern set_blocks]; try lia.
    + apply Forall_cons; [|apply Forall_nil]. unfold block_ok; cbn [ab_max ab_data]. rewrite zlen_nil; lia.
    + rewrite (awf_off _ W), C. reflexivity.
    + unfold content at 1. simpl. now rewrite C.
    + cbn [ab_max ab_data]. rewrite zlen_nil; lia.
  - assert (F : Forall block_ok (l ++ [b])) by (rewrite <- E; apply W).
    apply Forall_app in F. destruct F as [Fl Fb]. inversion Fb as [|? ? Hb _]; subst.
    unfold block_ok in Hb. pose proof (zlen_nonneg _ (ab_data b)).
    assert (Em : forall A (x y : A), match as_blocks s with [] => x | _ => y end = y).
    { intros A x y. rewrite E. destruct l; reflexivity. }
    rewrite Em. rewrite E, last_app_block. unfold u64 at 1. rewrite Z.mod_small by lia.
    destruct (len <=? ab_max b - zlen (ab_data b)) eqn:El.
    + exists s, l, b. split; [reflexivity|]. split; [exact W|]. split; [repeat split|].
      split; [exact E|lia].
    + unfold u64. rewrite (Z.mod_small (2 * len)) by lia.
      rewrite (Z.mod_small (2 * as_offset s)) by lia.
      eexists _, (l ++ [b]), _. split; [reflexivity|].
      assert (C : forall m, concat (map ab_data ((l ++ [b]) ++ [{| ab_max := m; ab_data := [] |}])) = content s).
      { intros m. unfold content. rewrite E, map_app, concat_app. simpl. now rewrite app_nil_r. }
      repeat split; cbn [as_blocks as_offset as_nobits as_align as_pattern set_blocks]; try lia.
      * apply Forall_app. split; [apply Forall_app; split; assumption|].
        apply Forall_cons; [|apply Forall_nil]. unfold block_ok; cbn [ab_max ab_data]. rewrite zlen_nil; lia.
      * unfold content; simpl. rewrite C. apply W.
      * unfold content at 1; simpl. apply C.
      * cbn [ab_max ab_data]. rewrite zlen_nil; lia.
Qed.

Lemma put_ok : forall s l b d, awf s -> as_blocks s = l ++ [b] ->
  zlen (ab_data b) + zlen d <= ab_max b -> as_offset s + zlen d < two64 ->
  exists s', put s d = Ok s' /\ awf s' /\ content s' = content s ++ d /\
    as_offset s' = as_offset s + zlen d /\ as_nobits s' = as_nobits s /\
    as_align s' = as_align s /\ as_pattern s' = as_pattern s.
Proof.
  intros s l b d W E Hr Ho. unfold put.
  assert (Hoff : 0 <= as_offset s) by (rewrite (awf_off _ W); apply zlen_nonneg).
  pose proof (zlen_nonneg _ d).
  assert (Em : forall A (x y : A), match as_blocks s with [] => x | _ => y end = y).
  { intros A x y. rewrite E. destruct l; reflexivity. }
  rewrite Em, E, last_app_block, removelast_last.
  replace (ab_max b <? zlen (ab_data b) + zlen d) with false by lia.
  unfold u64. rewrite Z.mod_small by lia.
  eexists. split; [reflexivity|].
  assert (C : concat (map ab_data (l ++ [{| ab_max := ab_max b; ab_data := ab_data b ++ d |}]))
              = content s ++ d).
  { unfold content. rewrite E, !map_app, !concat_app. simpl. now rewrite !app_nil_r, app_assoc. }
  assert (F : Forall block_ok (l ++ [b])) by (rewrite <- E; apply W).
  apply Forall_app in F. destruct F as [Fl Fb]. inversion Fb as [|? ? Hb _]; subst.
  repeat split; simpl; auto.
  - apply Forall_app. split; [assumption|]. apply Forall_cons; [|apply Forall_nil]. unfold block_ok in *; cbn [ab_max ab_data]. rewrite zlen_app. lia.
  - unfold content; simpl. rewrite C, zlen_app, <- (awf_off _ W). reflexivity.
Qed.

Lemma emit_ok : forall s d len, awf s -> zlen d = len -> len < 2 ^ 61 ->
  as_offset s < 2 ^ 62 ->
  exists s', (s1 <- ensure_section_space yes s len ;; put s1 d) = Ok s' /\ awf s' /\
    content s' = content s ++ d /\
    as_offset s' = as_offset s + len /\ as_nobits s' = as_nobits s /\
    as_align s' = as_align s /\ as_pattern s' = as_pattern s.
Proof.
  intros s d len W Hd Hl Ho. pose proof (zlen_nonneg _ d).
  destruct (ensure_ok s len W ltac:(lia) Ho) as (s1 & l & b & E & W1 & (S1 & S2 & S3 & S4 & S5) & B & Hr).
  rewrite E. cbn [obind].
  destruct (put_ok s1 l b d W1 B) as (s' & E' & W' & C' & O' & N' & A' & P'); try lia.
  exists s'. split; [exact E'|]. split; [exact W'|]. repeat split; congruence.
Qed.

(* ------------------------------------------------------------------ *)
Lemma lor_128 : forall b, 0 <= b < 128 -> Z.lor b 128 = b + 128.
Proof. intros b Hb. pose proof (lor_add_pow2 b 1 7 ltac:(lia) ltac:(lia)) as H. change (1 * 2 ^ 7) with 128 in H. exact H. Qed.

Lemma uleb_tmpbuf_ok : forall fuel n, 0 <= n < 128 ^ Z.of_nat fuel ->
  (0 < fuel)%nat -> uleb_tmpbuf fuel n = Ok (uleb_encode fuel n).
Proof.
  induction fuel as [|fuel IH]; intros n Hn Hf; [lia|].
  cbn [uleb_tmpbuf uleb_encode]. rewrite land_127, Z.shiftr_div_pow2 by lia. change (2 ^ 7) with 128.
  pose proof (Z.mod_pos_bound n 128 ltac:(lia)).
  destruct (n / 128 =? 0) eqn:E; [reflexivity|].
  destruct fuel as [|fuel].
  - exfalso. change (128 ^ Z.of_nat 1) with 128 in Hn. rewrite Z.div_small in E by lia. discriminate.
  - rewrite IH; [|split; [apply Z.div_pos; lia|]|lia].
    + cbn [obind]. now rewrite lor_128 by lia.
    + apply Z.div_lt_upper_bound; [lia|]. rewrite Nat2Z.inj_succ, Z.pow_succ_r in Hn by lia. lia.
Qed.

Lemma uleb_encode_len : forall fuel n, (0 < fuel)%nat -> 0 < zlen (uleb_encode fuel n) <= Z.of_nat fuel.
Proof.
  induction fuel as [|fuel IH]; intros n Hf; [lia|]. cbn [uleb_encode].
  destruct (n / 128 =? 0); [rewrite zlen_cons, zlen_nil; lia|].
  rewrite zlen_cons. destruct fuel as [|fuel]; [cbn [uleb_encode]; rewrite zlen_nil; lia|].
  specialize (IH (n / 128) ltac:(lia)). lia.
Qed.

(* the signed loop against the canonical encoding and the decoded value *)
Lemma sleb_tmpbuf_spec : forall fuel n e,
  - 128 ^ Z.of_nat fuel <= n < 128 ^ Z.of_nat fuel -> (0 < fuel)%nat ->
  e = (if n <? 0 then -1 else 0) ->
  exists bs k, sleb_tmpbuf fuel n e = Ok bs /\ leb_complete bs /\ zlen bs = Z.of_nat k /\
    (1 <= k <= fuel)%nat /\
    - 128 ^ Z.of_nat k <= n < 128 ^ Z.of_nat k /\
    (k = 1%nat \/ ~ (- 128 ^ (Z.of_nat k - 1) <= n < 128 ^ (Z.of_nat k - 1))) /\
    (sleb_value bs = n <-> - (64 * 128 ^ (Z.of_nat k - 1)) <= n < 64 * 128 ^ (Z.of_nat k - 1)).
Proof.
  induction fuel as [|fuel IH]; intros n e Hn Hf He; [lia|].
  cbn [sleb_tmpbuf]. rewrite land_127, Z.shiftr_div_pow2 by lia. change (2 ^ 7) with 128.
  pose proof (Z.mod_pos_bound n 128 ltac:(lia)) as Hm.
  pose proof (Z.div_mod n 128 ltac:(lia)) as Hd.
  destruct (n / 128 =? e) eqn:E.
  - exists [n mod 128], 1%nat. split; [reflexivity|]. split; [simpl; lia|]. split; [reflexivity|].
    split; [lia|]. change (128 ^ Z.of_nat 1) with 128. change (128 ^ (Z.of_nat 1 - 1)) with 1.
    assert (Hr : -128 <= n < 128) by (destruct (n <? 0) eqn:En; lia).
    split; [exact Hr|]. split; [now left|]. cbn [sleb_value].
    destruct (n mod 128 <? 64) eqn:E64; destruct (n <? 0) eqn:En; lia.
  - destruct fuel as [|fuel].
    + exfalso. change (128 ^ Z.of_nat 1) with 128 in Hn. destruct (n <? 0) eqn:En; lia.
    + destruct (IH (n / 128) e) as (bs & k & Eb & Hc & Hl & Hk & Hr & Hmin & Hv); [| lia | |].
      * rewrite Nat2Z.inj_succ, Z.pow_succ_r in Hn by lia. lia.
      * rewrite He. destruct (n <? 0) eqn:En; destruct (n / 128 <? 0) eqn:En2; lia.
      * exists ((n mod 128 + 128) :: bs), (S k). rewrite Eb. cbn [obind]. rewrite lor_128 by lia.
        split; [reflexivity|].
        assert (Hne : bs <> []) by (intros ->; destruct Hc).
        split. { destruct bs; [congruence|]. split; [lia|exact Hc]. }
        split. { rewrite zlen_cons. lia. }
        split; [lia|].
        assert (P1 : 128 ^ Z.of_nat (S k) = 128 * 128 ^ Z.of_nat k)
          by (rewrite Nat2Z.inj_succ, Z.pow_succ_r; lia).
        assert (P2 : 128 ^ (Z.of_nat (S k) - 1) = 128 ^ Z.of_nat k) by (f_equal; lia).
        assert (P3 : 128 ^ Z.of_nat k = 128 * 128 ^ (Z.of_nat k - 1)).
        { rewrite <- Z.pow_succ_r by lia. f_equal; lia. }
        rewrite P1, P2. split; [lia|]. split.
        -- right. destruct Hmin as [->|Hmin]; [|lia].
           change (128 ^ Z.of_nat 1) with 128. change (128 ^ (Z.of_nat 1 - 1)) with 1 in *.
           destruct (n <? 0) eqn:En; lia.
        -- replace (sleb_value ((n mod 128 + 128) :: bs)) with (n mod 128 + 128 * sleb_value bs).
           ++ rewrite P3. lia.
           ++ destruct bs; [congruence|]. cbn [sleb_value].
              replace ((n mod 128 + 128) mod 128) with (n mod 128); [reflexivity|].
              rewrite <- Z.add_mod_idemp_r by lia. change (128 mod 128) with 0.
              rewrite Z.add_0_r, Z.mod_mod; lia.
Qed.

(* a complete encoding of minimal length is the canonical one *)
Lemma sleb_tmpbuf_canonical : forall fuel n e bs,
  - 128 ^ Z.of_nat fuel <= n < 128 ^ Z.of_nat fuel ->
  e = (if n <? 0 then -1 else 0) ->
  sleb_tmpbuf fuel n e = Ok bs -> sleb_value bs = n -> bs = sleb_encode fuel n.
Proof.
  induction fuel as [|fuel IH]; intros n e bs Hn He Eb Hv; [discriminate|].
  cbn [sleb_tmpbuf sleb_encode] in *. rewrite land_127, Z.shiftr_div_pow2 in Eb by lia.
  change (2 ^ 7) with 128 in Eb.
  pose proof (Z.mod_pos_bound n 128 ltac:(lia)) as Hm.
  pose proof (Z.div_mod n 128 ltac:(lia)) as Hd.
  destruct (n / 128 =? e) eqn:E.
  - inversion Eb; subst bs. cbn [sleb_value] in Hv.
    replace ((-64 <=? n) && (n <? 64)) with true; [reflexivity|].
    destruct (n mod 128 <? 64) eqn:E64; destruct (n <? 0) eqn:En; lia.
  - destruct (sleb_tmpbuf fuel (n / 128) e) as [r| | |] eqn:Er; try discriminate.
    cbn [obind] in Eb. rewrite lor_128 in Eb by lia. inversion Eb; subst bs.
    replace ((-64 <=? n) && (n <? 64)) with false.
    2:{ destruct (n <? 0) eqn:En; lia. }
    f_equal. apply (IH (n / 128) e); auto.
    + rewrite Nat2Z.inj_succ, Z.pow_succ_r in Hn by lia. lia.
    + rewrite He. destruct (n <? 0) eqn:En; destruct (n / 128 <? 0) eqn:En2; lia.
    + destruct r as [|x r].
      * exfalso. destruct fuel; [discriminate Er|]. cbn [sleb_tmpbuf] in Er.
        destruct (Z.shiftr (n / 128) 7 =? e) in Er; [discriminate Er|].
        destruct (sleb_tmpbuf fuel (Z.shiftr (n / 128) 7) e) in Er; cbn [obind] in Er; discriminate Er.
      * cbn [sleb_value] in Hv.
        replace ((n mod 128 + 128) mod 128) with (n mod 128) in Hv.
        -- cbn [sleb_value]. destruct r; lia.
        -- rewrite <- Z.add_mod_idemp_r by lia. change (128 mod 128) with 0.
           rewrite Z.add_0_r, Z.mod_mod; lia.
Qed.

(* ------------------------------------------------------------------ *)
Lemma fill_bytes_ok : forall cnt p off, 0 < zlen p -> 0 <= off ->
  fill_bytes cnt p (off mod zlen p)
  = Ok (map (fun i => nth (Z.to_nat ((off + Z.of_nat i) mod zlen p)) p 0) (seq 0 cnt)).
Proof.
  induction cnt as [|cnt IH]; intros p off Hp Ho; [reflexivity|].
  cbn [fill_bytes seq map]. pose proof (Z.mod_pos_bound off (zlen p) Hp) as Hm.
  destruct (znth_in _ p (off mod zlen p) Hm) as [b E]. rewrite E.
  assert (Eb : nth (Z.to_nat ((off + Z.of_nat 0) mod zlen p)) p 0 = b).
  { change (Z.of_nat 0) with 0. rewrite Z.add_0_r. apply znth_Some in E. destruct E as [_ E].
    now apply nth_error_nth. }
  rewrite Eb.
  replace (if off mod zlen p + 1 =? zlen p then 0 else off mod zlen p + 1)
    with ((off + 1) mod zlen p).
  - rewrite IH by lia. cbn [obind]. do 2 f_equal.
    rewrite <- seq_shift, map_map. apply map_ext. intros i. do 3 f_equal. lia.
  - destruct (off mod zlen p + 1 =? zlen p) eqn:E1.
    + replace (off + 1) with ((off / zlen p + 1) * zlen p).
      * apply Z.mod_mul; lia.
      * pose proof (Z.div_mod off (zlen p) ltac:(lia)). lia.
    + replace (off + 1) with (off mod zlen p + 1 + (off / zlen p) * zlen p).
      * rewrite Z.mod_add by lia. apply Z.mod_small; lia.
      * pose proof (Z.div_mod off (zlen p) ltac:(lia)). lia.
Qed.

Lemma padding_len : forall p off v, 0 < v -> zlen (padding p off v) = (- off) mod v.
Proof.
  intros p off v Hv. unfold padding, zlen. rewrite map_length, seq_length.
  pose proof (Z.mod_pos_bound (- off) v Hv). lia.
Qed.

Lemma align_ok : forall s v, awf s -> 0 < zlen (as_pattern s) -> is_power2 v -> v < two32 ->
  as_offset s < 2 ^ 62 ->
  exists s', asm_align yes s v = Ok s' /\ awf s' /\
    content s' = content s ++ map Some (padding (as_pattern s) (as_offset s) v) /\
    as_offset s' = as_offset s + (- as_offset s) mod v /\ as_nobits s' = as_nobits s /\
    as_pattern s' = as_pattern s /\ as_align s' = Z.max (as_align s) v.
Proof.
  intros s v W Hp (k & Hk & Ev) Hv32 Ho.
  assert (Hoff : 0 <= as_offset s) by (rewrite (awf_off _ W); apply zlen_nonneg).
  assert (Hv : 0 < v) by (rewrite Ev; apply Z.pow_pos_nonneg; lia).
  unfold asm_align. unfold u32. rewrite Z.mod_small by lia.
  assert (L : Z.land v (v - 1) = 0).
  { rewrite Ev. rewrite land_mask by lia. apply Z.mod_same. lia. }
  rewrite L. cbn [Z.eqb negb].
  assert (R : Z.land (as_offset s) (v - 1) = as_offset s mod v).
  { rewrite Ev. now apply land_mask. }
  rewrite R. pose proof (Z.mod_pos_bound (as_offset s) v Hv) as Hm.
  destruct (as_offset s mod v =? 0) eqn:E0.
  - assert (Z0 : (- as_offset s) mod v = 0) by (apply Z.mod_opp_l_z; lia).
    cbn [obind].
    assert (PD : padding (as_pattern s) (as_offset s) v = []).
    { unfold padding. rewrite Z0. reflexivity. }
    rewrite PD, Z0. cbn [map]. rewrite app_nil_r.
    eexists. split; [reflexivity|].
    destruct (as_align s <? v) eqn:Ea; unfold set_align.
    + split; [constructor; [apply W|exact (awf_off _ W)]|].
      unfold content; cbn [as_blocks as_offset as_nobits as_pattern as_align]. repeat split; lia.
    + split; [exact W|]. repeat split; lia.
  - assert (Z1 : (- as_offset s) mod v = v - as_offset s mod v) by (apply Z.mod_opp_l_nz; lia).
    unfold u64. rewrite (Z.mod_small (v - _)) by lia.
    replace (zlen (as_pattern s) =? 0) with false by lia.
    rewrite fill_bytes_ok by lia. cbn [obind].
    set (d := map Some _).
    assert (Ed : d = map Some (padding (as_pattern s) (as_offset s) v)).
    { unfold d, padding. now rewrite Z1. }
    rewrite Ed.
    assert (Hlen : zlen (map Some (padding (as_pattern s) (as_offset s) v)) = v - as_offset s mod v).
    { unfold zlen. rewrite map_length. fold (zlen (padding (as_pattern s) (as_offset s) v)).
      rewrite padding_len; lia. }
    destruct (emit_ok s (map Some (padding (as_pattern s) (as_offset s) v)) (v - as_offset s mod v)
                W Hlen ltac:(lia) Ho) as (s' & E & W' & C' & O' & N' & A' & P').
    destruct (ensure_section_space yes s (v - as_offset s mod v)) as [s1| | |] eqn:Ens; try discriminate.
    cbn [obind] in E |- *. rewrite E. cbn [obind].
    eexists. split; [reflexivity|].
    destruct (as_align s' <? v) eqn:Ea; unfold set_align.
    + split; [constructor; [apply W'|exact (awf_off _ W')]|].
      unfold content in *; cbn [as_blocks as_offset as_nobits as_pattern as_align]. repeat split; auto; lia.
    + split; [exact W'|]. repeat split; auto; lia.
Qed.

Lemma addstrz_ok : forall s t, awf s -> as_nobits s = false -> 0 < zlen t < 2 ^ 32 -> as_offset s < 2 ^ 62 ->
  exists s', asm_addstrz yes s t (zlen t) = Ok s' /\ awf s' /\
    content s' = content s ++ map Some t /\
    as_offset s' = as_offset s + zlen t /\ as_nobits s' = as_nobits s /\
    as_align s' = as_align s /\ as_pattern s' = as_pattern s.
Proof.
  intros s t W Hnb Ht Ho. unfold asm_addstrz.
  replace (zlen t =? 0) with false by lia. replace (zlen t <=? zlen t) with true by lia.
  rewrite Hnb. cbn [andb].
  assert (Ef : firstn (Z.to_nat (zlen t)) t = t) by (unfold zlen; rewrite Nat2Z.id; apply firstn_all).
  rewrite Ef, <- Hnb.
  apply emit_ok; auto; [|lia]. unfold zlen. now rewrite map_length.
Qed.

Lemma adduleb_ok : forall s n, awf s -> as_nobits s = false -> is_u32 n -> as_offset s < 2 ^ 62 ->
  exists s', asm_adduleb128 yes s n = Ok s' /\ awf s' /\
    content s' = content s ++ map Some (uleb_encode 5 n) /\
    as_offset s' = as_offset s + zlen (uleb_encode 5 n) /\ as_nobits s' = as_nobits s /\
    as_align s' = as_align s /\ as_pattern s' = as_pattern s.
Proof.
  intros s n W Hnb Hn Ho. unfold asm_adduleb128. rewrite Hnb. cbn [andb].
  unfold is_u32 in Hn. rewrite uleb_tmpbuf_ok; [|change (128 ^ Z.of_nat 5) with 34359738368; lia|lia].
  cbn [obind].
  pose proof (uleb_encode_len 5 n ltac:(lia)).
  destruct (emit_ok s (map Some (uleb_encode 5 n)) (zlen (uleb_encode 5 n)) W) as (s' & E & R);
    [unfold zlen; now rewrite map_length|lia|lia|].
  destruct (ensure_ok s (zlen (uleb_encode 5 n)) W ltac:(lia) Ho) as (s1 & l & b & E1 & _ & (S1 & _) & _).
  rewrite E1 in *. cbn [obind] in *. rewrite S1, Hnb. exists s'. split; [exact E|].
  rewrite <- Hnb. exact R.
Qed.

Lemma s31_sign : forall n, - two31 <= n < two31 -> Z.shiftr n 31 = (if n <? 0 then -1 else 0).
Proof.
  intros n Hn. rewrite Z.shiftr_div_pow2 by lia. change (2 ^ 31) with two31.
  destruct (n <? 0) eqn:E.
  - symmetry. apply (Z.div_unique n two31 (-1) (n + two31)); lia.
  - apply Z.div_small; lia.
Qed.

(* what asm_addsleb128 appends *)
Lemma addsleb_ok : forall s n, awf s -> as_nobits s = false -> - two31 <= n < two31 ->
  as_offset s < 2 ^ 62 ->
  exists s' bs k, asm_addsleb128 yes s n = Ok s' /\ awf s' /\
    content s' = content s ++ map Some bs /\
    as_offset s' = as_offset s + zlen bs /\ as_nobits s' = as_nobits s /\
    as_align s' = as_align s /\ as_pattern s' = as_pattern s /\
    leb_complete bs /\ zlen bs = Z.of_nat k /\ (1 <= k <= 5)%nat /\
    - 128 ^ Z.of_nat k <= n < 128 ^ Z.of_nat k /\
    (k = 1%nat \/ ~ (- 128 ^ (Z.of_nat k - 1) <= n < 128 ^ (Z.of_nat k - 1))) /\
    (sleb_value bs = n <-> - (64 * 128 ^ (Z.of_nat k - 1)) <= n < 64 * 128 ^ (Z.of_nat k - 1)) /\
    (sleb_value bs = n -> bs = sleb_encode 5 n).
Proof.
  intros s n W Hnb Hn Ho. unfold asm_addsleb128. rewrite Hnb. cbn [andb].
  rewrite s31_sign by lia.
  assert (H5 : - 128 ^ Z.of_nat 5 <= n < 128 ^ Z.of_nat 5)
    by (change (128 ^ Z.of_nat 5) with 34359738368; lia).
  destruct (sleb_tmpbuf_spec 5 n _ H5 ltac:(lia) eq_refl)
    as (bs & k & E & Hc & Hl & Hk & Hr & Hmin & Hv).
  pose proof (sleb_tmpbuf_canonical 5 n _ bs H5 eq_refl E) as Hcan.
  assert (Etmp : (if n =? 0 then Ok [0] else sleb_tmpbuf 5 n (if n <? 0 then -1 else 0)) = Ok bs).
  { destruct (n =? 0) eqn:E0; [|exact E]. assert (n = 0) as -> by lia. exact E. }
  rewrite Etmp. cbn [obind].
  destruct (emit_ok s (map Some bs) (zlen bs) W) as (s' & E' & R);
    [unfold zlen; now rewrite map_length|lia|lia|].
  destruct (ensure_ok s (zlen bs) W ltac:(lia) Ho) as (s1 & l & b & E1 & _ & (S1 & _) & _).
  rewrite E1 in *. cbn [obind] in *. rewrite S1, Hnb. exists s', bs, k.
  rewrite Hnb in R. tauto.
Qed.

Lemma addint_progbits : forall host out n s num, awf s -> as_nobits s = false -> (n <= 8)%nat ->
  as_offset s < 2 ^ 62 ->
  exists s', asm_addint host out yes n s num = Ok s' /\ awf s' /\
    content s' = content s ++ repeat None n /\
    as_offset s' = as_offset s + Z.of_nat n /\ as_nobits s' = as_nobits s /\
    as_align s' = as_align s /\ as_pattern s' = as_pattern s.
Proof.
  intros host out n s num W Hnb Hn Ho. unfold asm_addint. rewrite Hnb. cbn [andb].
  destruct (emit_ok s (repeat None n) (Z.of_nat n) W) as (s' & E' & R);
    [apply zlen_repeat|lia|lia|].
  destruct (ensure_ok s (Z.of_nat n) W ltac:(lia) Ho) as (s1 & l & b & E1 & _ & (S1 & _) & _).
  rewrite E1 in *. cbn [obind] in *. rewrite S1, Hnb. exists s'. rewrite Hnb in R. tauto.
Qed.

Lemma le_bytes_0 : forall n, le_bytes n 0 = repeat 0 n.
Proof. induction n as [|n IH]; [reflexivity|]. cbn [le_bytes repeat]. rewrite Z.mod_0_l, Z.div_0_l by lia. now rewrite IH. Qed.

Lemma rev_repeat : forall A (x : A) n, rev (repeat x n) = repeat x n.
Proof.
  induction n as [|n IH]; [reflexivity|]. cbn [repeat rev]. rewrite IH.
  replace [x] with (repeat x 1) by reflexivity. rewrite <- repeat_app.
  replace (n + 1)%nat with (S n) by lia. reflexivity.
Qed.

Lemma addint_nobits : forall host out n s num, awf s -> as_nobits s = true -> (n <= 8)%nat ->
  as_offset s < 2 ^ 62 ->
  (num <> 0 -> asm_addint host out yes n s num = Err ASM_E_TYPE) /\
  (num = 0 -> exists s', asm_addint host out yes n s num = Ok s' /\ awf s' /\
    content s' = content s ++ map Some (repeat 0 n) /\
    as_offset s' = as_offset s + Z.of_nat n).
Proof.
  intros host out n s num W Hnb Hn Ho. split; intros Hz.
  - unfold asm_addint. rewrite Hnb. replace (num =? 0) with false by lia. reflexivity.
  - subst num. unfold asm_addint. rewrite Hnb. cbn [Z.eqb negb andb].
    rewrite Z.mod_0_l by (pose proof (Z.pow_pos_nonneg 256 (Z.of_nat n) ltac:(lia) ltac:(lia)); lia).
    destruct (emit_ok s (map Some (repeat 0 n)) (Z.of_nat n) W) as (s' & E' & R);
      [unfold zlen; now rewrite map_length, repeat_length|lia|lia|].
    destruct (ensure_ok s (Z.of_nat n) W ltac:(lia) Ho) as (s1 & l & b & E1 & _ & (S1 & _) & _).
    rewrite E1 in *. cbn [obind] in *. rewrite S1, Hnb.
    assert (B0 : bswap n 0 = 0).
    { unfold bswap, be_value. rewrite le_bytes_0, rev_repeat.
      clear. induction n as [|n IH]; [reflexivity|]. cbn [repeat le_value]. rewrite IH. reflexivity. }
    assert (V0 : forall (b : bool), (if b then bswap n 0 else 0) = 0) by (intros []; auto).
    rewrite V0.
    assert (NS : native_store host n 0 = repeat 0 n).
    { destruct host; unfold native_store, be_bytes; rewrite le_bytes_0; [reflexivity|apply rev_repeat]. }
    rewrite NS. exists s'. tauto.
Qed.

(* ------------------------------------------------------------------ *)
(* Histories. *)
Definition arun_op (s : ascn) (o : aop) : outcome ascn :=
  match o with
  | AUleb n => asm_adduleb128 yes s n
  | ASleb n => asm_addsleb128 yes s n
  | AInt k n => asm_addint LE LE yes k s n
  | AStr t => asm_addstrz yes s t (zlen t)
  | AAlign v => asm_align yes s v
  | AFill p => Ok (asm_fill s (Some p))
  end.

Fixpoint arun (s : ascn) (ops : list aop) : outcome ascn :=
  match ops with
  | [] => Ok s
  | o :: r => s' <- arun_op s o ;; arun s' r
  end.

(* the number fits the bytes the code produces *)
Definition sleb_fits (n : Z) : Prop :=
  exists k, 1 <= k /\ - (64 * 128 ^ (k - 1)) <= n < 64 * 128 ^ (k - 1) /\
            (k = 1 \/ ~ (- 128 ^ (k - 1) <= n < 128 ^ (k - 1))).

Definition aop_good (o : aop) : Prop :=
  aop_ok o /\ match o with ASleb n => sleb_fits n | AInt _ _ => False | _ => True end.

Definition aop_max (o : aop) : Z :=
  match o with AUleb _ | ASleb _ => 5 | AInt k _ => 8 | AStr s => zlen s | AAlign v => v | AFill _ => 0 end.

Definition total_max (ops : list aop) : Z := fold_right (fun o n => aop_max o + n) 0 ops.

Lemma sleb_fits_value : forall n k, sleb_fits n -> (1 <= k)%nat ->
  - 128 ^ Z.of_nat k <= n < 128 ^ Z.of_nat k ->
  (k = 1%nat \/ ~ (- 128 ^ (Z.of_nat k - 1) <= n < 128 ^ (Z.of_nat k - 1))) ->
  - (64 * 128 ^ (Z.of_nat k - 1)) <= n < 64 * 128 ^ (Z.of_nat k - 1).
Proof.
  intros n k (j & Hj & Hf & Hm) Hk Hr Hmin.
  assert (PP : forall a, 0 <= a -> 0 < 128 ^ a) by (intros; apply Z.pow_pos_nonneg; lia).
  assert (Mono : forall a b, 0 <= a <= b -> 128 ^ a <= 128 ^ b) by (intros; apply Z.pow_le_mono_r; lia).
  assert (S1 : forall a, 1 <= a -> 128 ^ a = 128 * 128 ^ (a - 1)).
  { intros a Ha. rewrite <- Z.pow_succ_r by lia. f_equal; lia. }
  destruct (Z.lt_trichotomy (Z.of_nat k) j) as [L|[Eq|G]].
  - exfalso. destruct Hm as [->|Hm]; [lia|]. apply Hm.
    pose proof (Mono (Z.of_nat k) (j - 1) ltac:(lia)). lia.
  - rewrite Eq. exact Hf.
  - exfalso. destruct Hmin as [->|Hmin]; [lia|]. apply Hmin.
    pose proof (Mono j (Z.of_nat k - 1) ltac:(lia)). pose proof (S1 j Hj).
    pose proof (PP (j - 1) ltac:(lia)). lia.
Qed.

Lemma arun_ok : forall ops s acc,
  awf s -> as_nobits s = false -> content s = map Some acc -> 0 < zlen (as_pattern s) ->
  Forall aop_good ops -> zlen acc + total_max ops < 2 ^ 62 ->
  exists s', arun s ops = Ok s' /\ awf s' /\
    content s' = map Some (section_content true (as_pattern s) acc ops).
Proof.
  induction ops as [|o ops IH]; intros s acc W Hnb Hc Hp Hg Hmax.
  - exists s. auto.
  - inversion Hg as [|? ? Hgo Hgr]; subst.
    assert (Hoff : as_offset s = zlen acc).
    { rewrite (awf_off _ W), Hc. unfold zlen. now rewrite map_length. }
    assert (Hmr : 0 <= total_max ops).
    { clear - Hgr. induction ops as [|o ops IH]; [reflexivity|]. inversion Hgr as [|? ? [Ho _] Hr]; subst.
      cbn [total_max fold_right]. fold (total_max ops). specialize (IH Hr).
      assert (0 <= aop_max o); [|lia].
      destruct o as [|
         | |s|v|]; cbn [aop_max aop_ok] in *; try lia.
      destruct Ho as [(k & Hk & ->) _]. apply Z.pow_nonneg; lia. }
    cbn [total_max fold_right] in Hmax. fold (total_max ops) in Hmax.
    pose proof (zlen_nonneg _ acc).
    destruct Hgo as [Hok Hex]. cbn [arun section_content].
    destruct o as [n|n|k n|t|v|p]; cbn [arun_op piece aop_max aop_ok] in *.
    + destruct (adduleb_ok s n W Hnb Hok ltac:(lia)) as (s1 & E & W1 & C1 & O1 & N1 & A1 & P1).
      rewrite E. cbn [obind]. rewrite <- P1. apply IH; auto; try congruence.
      * rewrite C1, Hc, map_app. reflexivity.
      * rewrite zlen_app. pose proof (uleb_encode_len 5 n ltac:(lia)). lia.
    + destruct (addsleb_ok s n W Hnb Hok ltac:(lia))
        as (s1 & bs & k & E & W1 & C1 & O1 & N1 & A1 & P1 & Hlc & Hl & Hk & Hr & Hmin & Hv & Hcan).
      assert (Hbs : bs = sleb_encode 5 n).
      { apply Hcan, Hv. apply sleb_fits_value; auto; lia. }
      rewrite E. cbn [obind]. rewrite <- P1. apply IH; auto; try congruence.
      * rewrite C1, Hc, map_app, Hbs. reflexivity.
      * rewrite zlen_app, <- Hbs. lia.
    + destruct Hex.
    + destruct Hok as [_ Hlt].
      destruct (addstrz_ok s t W Hnb Hlt ltac:(lia)) as (s1 & E & W1 & C1 & O1 & N1 & A1 & P1).
      rewrite E. cbn [obind]. rewrite <- P1. apply IH; auto; try congruence.
      * rewrite C1, Hc, map_app. reflexivity.
      * rewrite zlen_app. lia.
    + destruct Hok as [Hp2 Hv32].
      assert (0 < v) by (destruct Hp2 as (k & Hk & ->); apply Z.pow_pos_nonneg; lia).
      destruct (align_ok s v W Hp Hp2 Hv32 ltac:(lia)) as (s1 & E & W1 & C1 & O1 & N1 & P1 & A1).
      rewrite E. cbn [obind].
      specialize (IH s1 (acc ++ padding (as_pattern s) (zlen acc) v)). rewrite P1 in IH.
      apply IH; auto; try congruence.
      * rewrite C1, Hc, map_app, Hoff. reflexivity.
      * rewrite zlen_app, padding_len by lia. pose proof (Z.mod_pos_bound (- zlen acc) v ltac:(lia)). lia.
    + rewrite app_nil_r. cbn [obind].
      specialize (IH (asm_fill s (Some p)) acc). cbn [asm_fill as_pattern as_nobits] in IH.
      apply IH; auto; try tauto.
      * constructor; [apply W|exact (awf_off _ W)].
Qed.

Lemma new_awf : forall nb, awf (new_scn nb) /\ content (new_scn nb) = [].
Proof. intros nb. split; [|reflexivity]. constructor; [constructor|reflexivity]. Qed.

(* asm_end *)
Lemma end_datas_bytes : forall bl al off,
  concat (map snd (end_datas bl al off)) = concat (map ab_data bl).
Proof.
  induction bl as [|b bl IH]; intros al off; [reflexivity|].
  cbn [end_datas map snd concat]. now rewrite IH.
Qed.
