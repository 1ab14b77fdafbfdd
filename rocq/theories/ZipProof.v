(* Proofs about decompression. *)
From Verif Require Import Base RemProof CoreProof ZipModel ZipSpec.

Lemma shrink_ge : forall alloc k size more n, size <= more -> shrink alloc k size more = Some n -> size <= n <= more /\ alloc size n = true.
Proof.
  intros alloc k. induction k as [|k IH]; intros size more n H E; cbn [shrink] in E; destruct (alloc size more) eqn:A.
  - injection E as <-. split; [lia | exact A].
  - discriminate.
  - injection E as <-. split; [lia | exact A].
  - destruct (Z.leb_spec (size + 1024) more); [|discriminate]. apply IH in E; [|lia]. destruct E as (E1 & E2). split; [lia | exact E2].
Qed.
Lemma bigger_ge : forall alloc size start n, sane alloc -> 0 <= size < 2 ^ 63 -> 0 <= start -> bigger alloc size start = Some n -> size <= n < 2 ^ 63 /\ 0 <= n /\ alloc size n = true.
Proof.
  intros alloc size start n S H Hs E. unfold bigger in E. destruct (Z.eqb_spec size 0) as [-> | N].
  - apply shrink_ge in E; [|lia]. destruct E as (E1 & E2). pose proof (S _ _ E2). split; [lia | split; [lia | exact E2]].
  - unfold u64 in E. rewrite Z.mod_small in E by (change two64 with (2 ^ 64); lia). apply shrink_ge in E; [|lia].
    destruct E as (E1 & E2). pose proof (S _ _ E2). split; [lia | split; [lia | exact E2]].
Qed.

Lemma first_nil : forall A n (l : list A), (0 < n)%nat -> firstn n l = [] -> l = [].
Proof. intros A [|n] [|x l] H E; try reflexivity; try lia. discriminate. Qed.
Opaque READ.

Section inf.
Variables (alloc : Z -> Z -> bool) (Zs : Type) (code : Zs -> bytes -> Z -> zres * Z * bytes * Zs) (den : Zs -> bytes -> option bytes) (file : bytes) (mapd : bool).
Hypothesis Hd : decoder Zs code den.
Hypothesis Hs : sane alloc.

Definition tail_of (pos : Z) : bytes := if mapd then [] else skipn (Z.to_nat pos) file.
Definition put (a : bytes) (o : option bytes) : option bytes := match o with Some d => Some (a ++ d) | None => None end.

Lemma skip_all : forall (l : bytes) n, zlen l <= n -> skipn (Z.to_nat n) l = [].
Proof. intros l n H. apply skipn_all2. unfold zlen in H. lia. Qed.
Lemma zlen_0 : forall (l : bytes), zlen l = 0 -> l = [].
Proof. intros [|x l] H; [reflexivity|]. rewrite zlen_cons in H. pose proof (zlen_nonneg _ l). lia. Qed.
Lemma skip_add : forall (l : bytes) a b, skipn a (skipn b l) = skipn (b + a) l.
Proof. induction l as [|x l IH]; intros a b; [rewrite !skipn_nil; reflexivity|]. destruct b; cbn; [reflexivity|]. apply IH. Qed.

(* after filling: the same rest, and an empty input only at the end *)
Lemma fill_ok : forall inp pos, 0 <= pos ->
  let fill := (zlen inp =? 0) && negb mapd in
  let inp' := if fill then zsub file pos READ else inp in
  let pos' := if fill then pos + zlen inp' else pos in
  inp' ++ tail_of pos' = inp ++ tail_of pos /\ (inp' = [] -> tail_of pos' = []) /\ 0 <= pos'.
Proof.
  intros inp pos Hp fill inp' pos'. destruct fill eqn:F; subst fill.
  - assert (E : inp = []) by (apply zlen_0; lia). assert (M : mapd = false) by (destruct mapd; [rewrite Bool.andb_false_r in F; discriminate | reflexivity]).
    subst inp' pos'. unfold tail_of. rewrite M, E. pose proof (zlen_nonneg _ (zsub file pos READ)) as Ln.
    assert (X : zsub file pos READ ++ skipn (Z.to_nat (pos + zlen (zsub file pos READ))) file = skipn (Z.to_nat pos) file).
    { rewrite Z2Nat.inj_add, <- skip_add by lia. unfold zsub. set (l := skipn (Z.to_nat pos) file).
      unfold zlen. rewrite Nat2Z.id, firstn_length. destruct (Nat.le_gt_cases (Z.to_nat READ) (length l)).
      - rewrite Nat.min_l by assumption. apply firstn_skipn.
      - rewrite Nat.min_r by lia. rewrite firstn_all2 by lia. rewrite skipn_all. apply app_nil_r. }
    split; [exact X|]. split; [|lia]. intros Y. rewrite Y, zlen_nil, Z.add_0_r. rewrite Y, zlen_nil, Z.add_0_r in X. cbn [app] in X.
    unfold zsub in Y. apply first_nil in Y; [exact Y|]. assert (0 < READ) by reflexivity. lia.
  - subst inp' pos'. split; [reflexivity|]. split; [|exact Hp]. intros ->. unfold tail_of. destruct mapd; [reflexivity | discriminate].
Qed.

Lemma loop_ok : forall k z inp pos buf size,
  0 <= pos -> zlen buf <= size < 2 ^ 63 ->
  match loop alloc Zs code file mapd k z inp pos buf size with
  | Zok b => put buf (den z (inp ++ tail_of pos)) = Some b
  | Zfail E_ZLIB => grows alloc -> den z (inp ++ tail_of pos) = None
  | Zfail E_BADELF => False
  | Zub => False
  | _ => True
  end.
Proof.
  induction k as [|k IH]; intros z inp pos buf size Hp Hb; cbn [loop]; [exact I|].
  destruct (fill_ok inp pos Hp) as (F1 & F2 & F3).
  set (inp' := if (zlen inp =? 0) && negb mapd then zsub file pos READ else inp) in *.
  set (pos' := if (zlen inp =? 0) && negb mapd then pos + zlen inp' else pos) in *.
  pose proof (zlen_nonneg _ buf) as Zb. pose proof (zlen_nonneg _ inp') as Zi.
  set (g := if zlen buf =? size then bigger alloc size (zlen inp') else Some size).
  assert (G : match g with Some n => size <= n < 2 ^ 63 /\ (grows alloc -> zlen buf < n) | None => True end).
  { unfold g. destruct (Z.eqb_spec (zlen buf) size) as [E | N]; [|split; [lia | intros _; lia]].
    destruct (bigger alloc size (zlen inp')) as [n|] eqn:B; [|exact I]. destruct (bigger_ge alloc size (zlen inp') n Hs ltac:(lia) Zi B) as (B1 & B2 & _).
    split; [lia|]. intros Gr. pose proof (Gr size (zlen inp') n ltac:(lia) Zi B). lia. }
  destruct g as [n|]; [|exact I]. destruct G as (G1 & G2).
  pose proof (Hd z inp' (tail_of pos') (n - zlen buf) ltac:(lia)) as D. destruct (code z inp' (n - zlen buf)) as [[[r c] o] z'].
  destruct D as (D1 & D2 & D3). replace ((n - zlen buf <? zlen o) || (zlen inp' <? c)) with false by lia.
  rewrite F1 in D3. destruct r.
  - specialize (IH z' (skipn (Z.to_nat c) inp') pos' (buf ++ o) n F3 ltac:(rewrite zlen_app; pose proof (zlen_nonneg _ o); lia)).
      rewrite D3. destruct (loop alloc Zs code file mapd k z' (skipn (Z.to_nat c) inp') pos' (buf ++ o) n) as [b|e| |]; try exact IH.
    + destruct (den z' (skipn (Z.to_nat c) inp' ++ tail_of pos')); cbn [put] in *; [|discriminate]. rewrite <- app_assoc in IH. exact IH.
    + destruct e; try exact IH. intros Gr. rewrite (IH Gr). reflexivity.
  - rewrite D3. reflexivity.
  - intros Gr. apply D3; [exact F2 | specialize (G2 Gr); lia].
Qed.

Lemma loop_ends : forall mu : Zs -> bytes -> nat, grows alloc ->
  (forall z inp rest room c o z', 0 < room -> (inp = [] -> rest = []) -> code z inp room = (ZOK, c, o, z') ->
     (mu z' (skipn (Z.to_nat c) inp ++ rest) < mu z (inp ++ rest))%nat) ->
  forall k z inp pos buf size, 0 <= pos -> zlen buf <= size < 2 ^ 63 -> (mu z (inp ++ tail_of pos) < k)%nat ->
  loop alloc Zs code file mapd k z inp pos buf size <> Zfuel.
Proof.
  intros mu Gr Hm. induction k as [|k IH]; intros z inp pos buf size Hp Hb Hk; [lia|]. cbn [loop].
  destruct (fill_ok inp pos Hp) as (F1 & F2 & F3).
  set (inp' := if (zlen inp =? 0) && negb mapd then zsub file pos READ else inp) in *.
  set (pos' := if (zlen inp =? 0) && negb mapd then pos + zlen inp' else pos) in *.
  pose proof (zlen_nonneg _ buf) as Zb. pose proof (zlen_nonneg _ inp') as Zi.
  set (g := if zlen buf =? size then bigger alloc size (zlen inp') else Some size).
  assert (G : match g with Some n => size <= n < 2 ^ 63 /\ zlen buf < n | None => True end).
  { unfold g. destruct (Z.eqb_spec (zlen buf) size) as [E | N]; [|split; lia].
    destruct (bigger alloc size (zlen inp')) as [n|] eqn:B; [|exact I]. destruct (bigger_ge alloc size (zlen inp') n Hs ltac:(lia) Zi B) as (B1 & B2 & _).
    split; [lia|]. pose proof (Gr size (zlen inp') n ltac:(lia) Zi B). lia. }
  destruct g as [n|]; [|discriminate]. destruct G as (G1 & G2).
  pose proof (Hd z inp' (tail_of pos') (n - zlen buf) ltac:(lia)) as D. destruct (code z inp' (n - zlen buf)) as [[[r c] o] z'] eqn:C.
  destruct D as (D1 & D2 & D3). replace ((n - zlen buf <? zlen o) || (zlen inp' <? c)) with false by lia.
  destruct r; try discriminate. apply Hm with (rest := tail_of pos') in C; [|lia|exact F2]. rewrite F1 in C.
  apply IH; [exact F3 | rewrite zlen_app; pose proof (zlen_nonneg _ o); lia | lia].
Qed.
End inf.

Lemma zsub_more : forall (d : bytes) p n, 0 <= p -> 0 <= n -> zsub d 0 p ++ zsub d p n = zsub d 0 (p + n).
Proof.
  intros d p n H1 H2. unfold zsub. cbn [Z.to_nat skipn]. rewrite Z2Nat.inj_add by lia. symmetry.
  rewrite <- (firstn_skipn (Z.to_nat p) d) at 1. rewrite firstn_app, firstn_length.
  destruct (Nat.le_gt_cases (Z.to_nat p) (length d)) as [L | L].
  - rewrite Nat.min_l by assumption. rewrite firstn_firstn, Nat.min_r by lia. f_equal. f_equal. lia.
  - rewrite (skipn_all2 d) by lia. rewrite !firstn_nil. f_equal. rewrite firstn_firstn, Nat.min_r by lia. reflexivity.
Qed.
Lemma zsub_all : forall (d : bytes) n, zlen d <= n -> zsub d 0 n = d.
Proof. intros d n H. unfold zsub. cbn [Z.to_nat skipn]. apply firstn_all2. unfold zlen in H. lia. Qed.

Lemma gz_ok : forall alloc gzread d, (forall s n, alloc s n = true -> n < 2 ^ 32) -> gz_stream d gzread ->
  forall k buf size, zlen buf <= size < 2 ^ 63 -> zlen buf <= zlen d -> buf = zsub d 0 (zlen buf) ->
  match gz_loop alloc gzread k buf size with
  | Zok b => zlen b <= zlen d /\ b = zsub d 0 (zlen b) /\ (grows alloc -> b = d)
  | Zub => False
  | Zfail E_BADELF => False
  | _ => True
  end.
Proof.
  intros alloc gzread d Ha Hg. assert (Hs : sane alloc) by (intros s n X; specialize (Ha _ _ X); lia).
  induction k as [|k IH]; intros buf size Hb Hl E; cbn [gz_loop]; [exact I|]. pose proof (zlen_nonneg _ buf) as Zb.
  destruct (bigger alloc size 1024) as [n|] eqn:B; [|exact I]. destruct (bigger_ge alloc size 1024 n Hs ltac:(lia) ltac:(lia) B) as (B1 & B2 & B3).
  specialize (Ha _ _ B3). unfold gz_call, u32. rewrite Z.mod_small by (change two32 with (2 ^ 32); lia).
  destruct (2147483647 <? n - zlen buf); [exact I|]. destruct (gzread (zlen buf) (n - zlen buf)) as [o|] eqn:R; [|exact I].
  destruct (Hg (zlen buf) (n - zlen buf) o ltac:(lia) ltac:(lia) R) as (G1 & G2 & G3 & G4). pose proof (zlen_nonneg _ o) as Zo.
  replace (n - zlen buf <? zlen o) with false by lia. destruct (Z.eqb_spec (zlen o) 0) as [O | O].
  - split; [lia|]. split; [exact E|]. intros Gr. pose proof (Gr size 1024 n ltac:(lia) ltac:(lia) B).
    destruct (G4 (zlen_0 o O)) as [W | W]; [lia|]. rewrite E, W. apply zsub_all. lia.
  - apply IH; [rewrite zlen_app; lia | rewrite zlen_app; lia|]. rewrite zlen_app, <- zsub_more by lia. rewrite <- E, <- G1. reflexivity.
Qed.

Lemma gz_whole : forall (alloc : Z -> Z -> bool) (gzread : Z -> Z -> option bytes) (d : bytes), (forall s n, n <= 2 ^ 31 -> alloc s n = true) -> zlen d < 2 ^ 28 ->
  (forall pos room, 0 <= pos <= zlen d -> 0 <= room -> gzread pos room = Some (zsub d pos room)) ->
  forall k p size, 0 <= p <= zlen d -> p = size \/ (p = zlen d /\ p <= size < 2 ^ 30) -> 0 <= size ->
  (Z.to_nat (zlen d - p + (if (p =? size)%Z then 1 else 0)) + 1 < k)%nat ->
  gz_loop alloc gzread k (zsub d 0 p) size = Zok d.
Proof.
  intros alloc gzread d Ha Hl Hg. induction k as [|k IH]; intros p size Hp Hc Hz Hk; [lia|]. cbn [gz_loop].
  assert (Zp : zlen (zsub d 0 p) = p) by (rewrite zlen_zsub; lia). rewrite Zp.
  set (n := if size =? 0 then 1024 else size * 2).
  assert (N : n = size * 2 \/ size = 0 /\ n = 1024) by (unfold n; destruct (Z.eqb_spec size 0); auto).
  assert (S0 : size < 2 ^ 30) by (destruct Hc; lia).
  assert (N1 : size < n) by (unfold n; destruct (Z.eqb_spec size 0); lia).
  assert (B : bigger alloc size 1024 = Some n).
  { unfold bigger, u64. rewrite (Z.mod_small (size * 2)) by (change two64 with (2 ^ 64); lia). fold n.
    destruct (Z.to_nat (n / 1024)); cbn [shrink]; rewrite Ha by lia; reflexivity. }
  rewrite B. unfold gz_call, u32. rewrite Z.mod_small by (change two32 with (2 ^ 32); lia). replace (2147483647 <? n - p) with false by lia.
  rewrite Hg by lia. assert (Lo : zlen (zsub d p (n - p)) = Z.min (n - p) (zlen d - p)) by (apply zlen_zsub; lia).
  rewrite Lo. replace (n - p <? Z.min (n - p) (zlen d - p)) with false by lia.
  destruct (Z.eqb_spec (Z.min (n - p) (zlen d - p)) 0) as [O | O].
  - f_equal. apply zsub_all. lia.
  - assert (X : zsub d 0 p ++ zsub d p (n - p) = zsub d 0 (Z.min n (zlen d))).
    { rewrite zsub_more by lia. replace (p + (n - p)) with n by lia. destruct (Z.le_gt_cases n (zlen d)); [rewrite Z.min_l by lia; reflexivity|].
      rewrite Z.min_r by lia. rewrite !zsub_all by lia. reflexivity. }
    rewrite X. apply IH; try lia. destruct (Z.eqb_spec p size); destruct (Z.eqb_spec (Z.min n (zlen d)) n); lia.
Qed.
