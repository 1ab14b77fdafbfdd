(* Proofs about the memory of a Dwarf handle. *)
From Coq Require Import Sorting.Sorted.
From Verif Require Import Base ArenaModel ArenaSpec.

Lemma pad_ok : forall a align, 0 < align -> 0 <= (align - a mod align) mod align < align /\ (a + (align - a mod align) mod align) mod align = 0.
Proof.
  intros a align H. split; [apply Z.mod_pos_bound; exact H|]. rewrite Zplus_mod_idemp_r.
  replace (a + (align - a mod align)) with ((a - a mod align) + 1 * align) by lia. rewrite Z_mod_plus_full, Zminus_mod, Zmod_mod, Z.sub_diag. reflexivity.
Qed.
Lemma up_ok : forall x align, 0 < align -> let r := x + align - 1 - (x + align - 1) mod align in x <= r < x + align /\ r mod align = 0.
Proof.
  intros x align H r. pose proof (Z.mod_pos_bound (x + align - 1) align H). split; [unfold r; lia|]. unfold r. rewrite Zminus_mod, Zmod_mod, Z.sub_diag. reflexivity.
Qed.

(* the piece of a block *)
Definition piece (b : blk) : Z * Z := (b_at b - HDR, b_size b + HDR).
Definition blk_ok (b : blk) : Prop := 0 < b_at b - HDR /\ 0 <= b_rem b <= b_size b /\ b_at b + b_size b <= 2 ^ 64.
(* a piece in the used part of a block *)
Definition used (b : blk) (x : Z * Z) : Prop := b_at b <= fst x /\ fst x + snd x <= b_at b + (b_size b - b_rem b).
Definition inv (l : list blk) (got live : list (Z * Z)) : Prop :=
  Forall blk_ok l /\ got = map piece l /\ StronglySorted apart got /\
  (forall x, In x live -> 0 <= snd x /\ exists b, In b l /\ used b x).

Lemma alloc_ok : forall def b r got live q a l', 24 <= def -> inv (b :: r) got live -> fair q ->
  alloc def (b :: r) (q_size q) (q_cnt q) (q_align q) (q_malloc q) = Aok a l' ->
  let need := needs_block b (u64 (q_size q * q_cnt q)) (q_align q) in
  (need = true -> exists p, q_malloc q = Some p /\ 0 < p /\ p + new_size def (u64 (q_size q * q_cnt q)) (q_align q) <= 2 ^ 64 /\
     forall x, In x got -> apart (p, new_size def (u64 (q_size q * q_cnt q)) (q_align q)) x) ->
  let got' := if need then match q_malloc q with Some p => (p, new_size def (u64 (q_size q * q_cnt q)) (q_align q)) :: got | None => got end else got in
  inv l' got' ((a, q_size q * q_cnt q) :: live) /\ a mod q_align q = 0 /\ (forall x, In x live -> apart (a, q_size q * q_cnt q) x) /\ l' <> [].
Proof.
  intros def b r got live q a l' Hd (I1 & I2 & I3 & I4) (F1 & F2 & F3) H need M got'. subst got'. subst need. unfold alloc in H.
  set (req := q_size q * q_cnt q) in *. assert (U : u64 req = req) by (apply Z.mod_small; lia). rewrite U in *.
  set (at_ := b_at b + (b_size b - b_rem b)) in *. pose proof (pad_ok at_ (q_align q) F2) as (P1 & P2). set (pad := (q_align q - at_ mod q_align q) mod q_align q) in *.
  pose proof (Forall_inv I1) as Bk. destruct Bk as (K1 & K2 & K3).
  assert (Nd : needs_block b req (q_align q) = (b_rem b <? req + pad)) by (unfold needs_block; fold at_; fold pad; f_equal; apply Z.mod_small; lia).
  assert (Dj : forall c, In c r -> apart (piece b) (piece c)).
  { intros c Ic. rewrite I2 in I3. cbn [map] in I3. apply StronglySorted_inv in I3. destruct I3 as (_ & I3). rewrite Forall_forall in I3. apply I3. apply in_map. exact Ic. }
  destruct (needs_block b req (q_align q)) eqn:N.
  - destruct (M eq_refl) as (p & Mp & Mp0 & Mp1 & Mp2). rewrite Mp in *. unfold allocate in H. injection H as <- <-. cbn iota.
    set (size := new_size def req (q_align q)) in *.
    assert (Sz : size = Z.max def (q_align q - 1 + 2 * req + HDR)) by (unfold size, new_size; f_equal; apply Z.mod_small; unfold HDR; lia).
    pose proof (up_ok (p + HDR) (q_align q) F2) as (R1 & R2). set (res := p + HDR + q_align q - 1 - (p + HDR + q_align q - 1) mod q_align q) in *.
    assert (S1 : u64 (size - HDR) = size - HDR) by (apply Z.mod_small; unfold HDR in *; lia).
    assert (S2 : u64 (p + size - (res + req)) = p + size - (res + req)) by (apply Z.mod_small; unfold HDR in *; lia).
    rewrite S1, S2.
    assert (Pc : piece (Blk (p + HDR) (size - HDR) (p + size - (res + req))) = (p, size)) by (unfold piece; cbn; f_equal; lia).
    split; [|split; [exact R2|split; [|discriminate]]].
    + split; [apply Forall_cons; [|exact I1]; unfold blk_ok; cbn; unfold HDR in *; lia|]. split; [cbn [map]; rewrite Pc, I2; reflexivity|].
      split; [apply SSorted_cons; [exact I3 | apply Forall_forall; exact Mp2]|].
      intros x [<- | Ix].
      * split; [exact F1|]. eexists. split; [left; reflexivity|]. unfold used. cbn. unfold HDR in *. lia.
      * destruct (I4 x Ix) as (X1 & c & X2 & X3). split; [exact X1|]. exists c. split; [right; exact X2 | exact X3].
    + intros x Ix. destruct (I4 x Ix) as (X1 & c & X2 & X3 & X4).
      assert (Ap : apart (p, size) (piece c)) by (apply Mp2; rewrite I2; apply in_map; exact X2).
      assert (Kc : blk_ok c) by (rewrite Forall_forall in I1; exact (I1 c X2)). destruct Kc as (c1 & c2 & c3).
      unfold apart, piece in *. cbn [fst snd] in *. unfold HDR in *. lia.
  - injection H as <- <-. cbn iota. assert (Le : req + pad <= b_rem b) by lia. split; [|split; [exact P2|split; [|discriminate]]].
    + split; [apply Forall_cons; [unfold blk_ok; cbn; lia | exact (Forall_inv_tail I1)]|]. split; [exact I2|]. split; [exact I3|].
      intros x [<- | Ix].
      * split; [exact F1|]. eexists. split; [left; reflexivity|]. unfold used. cbn. unfold at_ in *. lia.
      * destruct (I4 x Ix) as (X1 & c & [<- | X2] & X3 & X4); (split; [exact X1|]).
        -- eexists. split; [left; reflexivity|]. unfold used. cbn. lia.
        -- exists c. split; [right; exact X2|]. split; assumption.
    + intros x Ix. destruct (I4 x Ix) as (X1 & c & [<- | X2] & X3 & X4).
      * right. cbn [fst]. unfold at_ in *. lia.
      * pose proof (Dj c X2) as Ap. assert (Kc : blk_ok c) by (pose proof (Forall_inv_tail I1) as T; rewrite Forall_forall in T; exact (T c X2)). destruct Kc as (c1 & c2 & c3).
        unfold apart, piece in *. cbn [fst snd] in *. unfold at_, HDR in *. lia.
Qed.

Lemma gotten_more : forall def qs l got x, In x got -> In x (gotten def l got qs).
Proof.
  intros def qs. induction qs as [|q qs IH]; intros l got x H; [exact H|]. cbn [gotten]. destruct l as [|b r]; [exact H|].
  destruct (alloc def (b :: r) (q_size q) (q_cnt q) (q_align q) (q_malloc q)) as [a l'| |]; try exact H.
  destruct (needs_block b (u64 (q_size q * q_cnt q)) (q_align q)); [|apply IH; exact H]. destruct (q_malloc q); apply IH; [right|]; exact H.
Qed.

Lemma run_ok : forall def qs l got live out e, 24 <= def -> l <> [] -> inv l got live -> Forall fair qs -> malloc_ok def l got qs -> run def l qs = (out, e) ->
  e <> Aub /\ StronglySorted apart out /\ (forall x y, In x live -> In y out -> apart y x) /\
  (forall x, In x out -> inside_one (gotten def l got qs) x) /\
  (forall k q x, nth_error qs k = Some q -> nth_error out k = Some x -> fst x mod q_align q = 0 /\ snd x = q_size q * q_cnt q).
Proof.
  intros def qs. induction qs as [|q qs IH]; intros l got live out e Hd L I F M H; cbn [run] in H.
  - injection H as <- <-. split; [discriminate|]. split; [constructor|]. split; [intros x y _ []|]. split; [intros x []|]. intros [|k] q x Hq; discriminate.
  - destruct l as [|b r]; [congruence|]. pose proof (Forall_inv F) as Fq. apply Forall_inv_tail in F. cbn [malloc_ok gotten] in M |- *.
    destruct (alloc def (b :: r) (q_size q) (q_cnt q) (q_align q) (q_malloc q)) as [a l'| |] eqn:A.
    2:{ injection H as <- <-. split; [discriminate|]. split; [constructor|]. split; [intros x y _ []|]. split; [intros x []|]. intros k q' x _ Hx. destruct k; discriminate. }
    2:{ exfalso. unfold alloc in A. destruct (needs_block b (u64 (q_size q * q_cnt q)) (q_align q)); [destruct (q_malloc q)|]; discriminate. }
    destruct (run def l' qs) as [o1 e1] eqn:R. injection H as <- <-.
    pose proof (alloc_ok def b r got live q a l' Hd I Fq A) as X. cbn zeta in X.
    set (need := needs_block b (u64 (q_size q * q_cnt q)) (q_align q)) in *.
    assert (Y : exists got', (forall x, In x got -> In x got') /\ inv l' got' ((a, q_size q * q_cnt q) :: live) /\ malloc_ok def l' got' qs /\
       (match need, q_malloc q with true, Some p => gotten def l' ((p, new_size def (u64 (q_size q * q_cnt q)) (q_align q)) :: got) qs | _, _ => gotten def l' got qs end = gotten def l' got' qs) /\
       a mod q_align q = 0 /\ (forall x, In x live -> apart (a, q_size q * q_cnt q) x) /\ l' <> []).
    { destruct need.
      - destruct (q_malloc q) as [p|]; [|destruct M]. destruct M as (M1 & M2 & M3 & M4). destruct X as (X1 & X2 & X3 & X4); [intros _; exists p; auto|].
        eexists. split; [|split; [exact X1|]]; [intros x Ix; right; exact Ix|]. auto.
      - destruct X as (X1 & X2 & X3 & X4); [discriminate|]. exists got. split; [auto|]. split; [exact X1|]. split; [exact M|]. split; [reflexivity | auto]. }
    destruct Y as (got' & Y0 & Y1 & Y2 & Y3 & Y4 & Y5 & Y6). rewrite Y3.
    destruct (IH l' got' ((a, q_size q * q_cnt q) :: live) o1 e1 Hd Y6 Y1 F Y2 R) as (J1 & J2 & J3 & J4 & J5).
    split; [exact J1|]. split; [|split; [|split]].
    + apply SSorted_cons; [exact J2|]. apply Forall_forall. intros y Iy. pose proof (J3 _ y (or_introl eq_refl) Iy) as Ap. unfold apart in *. lia.
    + intros x y Ix [<- | Iy]; [exact (Y5 x Ix) | exact (J3 x y (or_intror Ix) Iy)].
    + intros x [<- | Ix]; [|exact (J4 x Ix)]. destruct Y1 as (Bo & G & _ & Y1). destruct (Y1 _ (or_introl eq_refl)) as (_ & c & C1 & C2 & C3).
      exists (piece c). split; [apply gotten_more; rewrite G; apply in_map; exact C1|]. destruct Y1 with (x := (a, q_size q * q_cnt q)) as (N0 & _); [left; reflexivity|].
      cbn [fst snd] in *. unfold piece. cbn [fst snd].
      rewrite Forall_forall in Bo. destruct (Bo c C1) as (_ & Hb & _).
      unfold HDR. lia.
    + intros [|k] q' x Hq Hx; cbn in Hq, Hx; [injection Hq as <-; injection Hx as <-; split; [exact Y4 | reflexivity] | exact (J5 k q' x Hq Hx)].
Qed.
