(* C92: files that are compressed or have a boot header. *)
From Verif Require Import Base RemProof CoreProof ZipModel ZipSpec ZipProof.

Definition starts (f magic : bytes) : Prop := exists t, f = magic ++ t /\ (1 < length t)%nat.
Lemma starts_ok : forall f m, no_magic f m = false <-> starts f m.
Proof.
  intros f m. unfold no_magic, starts. pose proof (zlen_nonneg _ m) as Zm. split.
  - intros H. destruct (list_eq_dec Z.eq_dec (zsub f 0 (zlen m)) m) as [E | E]; [|rewrite Bool.orb_true_r in H; discriminate]. rewrite Bool.orb_false_r in H.
    unfold zsub in E. cbn [Z.to_nat skipn] in E. exists (skipn (Z.to_nat (zlen m)) f). split.
    + rewrite <- E at 1. symmetry. apply firstn_skipn.
    + rewrite skipn_length. unfold zlen in *. lia.
  - intros (t & -> & L). rewrite zlen_app. replace (zlen m + zlen t <=? zlen m + 1) with false by (unfold zlen; lia).
    unfold zsub. cbn [Z.to_nat skipn]. unfold zlen. rewrite Nat2Z.id, firstn_app, firstn_all, Nat.sub_diag. cbn [firstn]. rewrite app_nil_r.
    destruct (list_eq_dec Z.eq_dec m m); [reflexivity | congruence].
Qed.

(* Streams of libbz2 and liblzma.  However the library cuts the work into steps, however the input comes and the buffer grows, the data given is what the
   file is the compressed form of; an error of the data is one; the buffer is not overrun; and a file without the magic number is not touched. *)
Theorem C92_stream_partial : forall alloc Zs code den z0 magics file mapd k,
  decoder Zs code den -> sane alloc ->
  match inflate alloc Zs code file mapd k z0 magics with
  | Zok b => den z0 file = Some b /\ exists m, In m magics /\ starts (if mapd then file else zsub file 0 READ) m
  | Zfail E_ZLIB => grows alloc -> den z0 file = None
  | Zfail E_BADELF => forall m, In m magics -> ~ starts (if mapd then file else zsub file 0 READ) m
  | Zub => False
  | Zfail E_NOMEM | Zfuel => True
  end.
Proof.
  intros alloc Zs code den z0 magics file mapd k Hd Hs. unfold inflate. set (first := if mapd then file else zsub file 0 READ).
  destruct (forallb (no_magic first) magics) eqn:F.
  - intros m Hm W. rewrite forallb_forall in F. specialize (F m Hm). apply starts_ok in W. congruence.
  - assert (M : exists m, In m magics /\ starts first m).
    { clear - F. induction magics as [|m l IH]; [discriminate|]. cbn in F. destruct (no_magic first m) eqn:E.
      - destruct (IH F) as (x & X1 & X2). exists x. split; [right; exact X1 | exact X2].
      - exists m. split; [left; reflexivity | apply starts_ok; exact E]. }
    assert (T : first ++ tail_of file mapd (zlen first) = file).
    { unfold first, tail_of. destruct mapd; [apply app_nil_r|]. unfold zsub. cbn [Z.to_nat skipn]. unfold zlen. rewrite Nat2Z.id, firstn_length.
      destruct (Nat.le_gt_cases (Z.to_nat READ) (length file)).
      - rewrite Nat.min_l by assumption. apply firstn_skipn.
      - rewrite Nat.min_r by lia. rewrite firstn_all2 by lia. rewrite skipn_all. apply app_nil_r. }
    pose proof (loop_ok alloc Zs code den file mapd Hd Hs k z0 first (zlen first) [] 0 (zlen_nonneg _ _) ltac:(rewrite zlen_nil; lia)) as L.
    rewrite T in L. destruct (loop alloc Zs code file mapd k z0 first (zlen first) [] 0) as [b|e| |]; try exact L.
    + split; [|exact M]. unfold put in L. destruct (den z0 file); [|discriminate]. cbn in L. exact L.
    + destruct e; [destruct L | exact I | exact L].
Qed.
Print Assumptions C92_stream_partial.

(* With a library that gets on whenever it has room, and says so when there is no more input, it comes to an end. *)
Theorem C92_ends_partial : forall alloc Zs code den z0 magics file mapd k (mu : Zs -> bytes -> nat),
  decoder Zs code den -> sane alloc -> grows alloc ->
  (forall z inp rest room c o z', 0 < room -> (inp = [] -> rest = []) -> code z inp room = (ZOK, c, o, z') ->
     (mu z' (skipn (Z.to_nat c) inp ++ rest) < mu z (inp ++ rest))%nat) ->
  (mu z0 file < k)%nat -> inflate alloc Zs code file mapd k z0 magics <> Zfuel.
Proof.
  intros alloc Zs code den z0 magics file mapd k mu Hd Hs Gr Hm Hk. unfold inflate. set (first := if mapd then file else zsub file 0 READ).
  destruct (forallb (no_magic first) magics); [discriminate|].
  assert (T : first ++ tail_of file mapd (zlen first) = file).
  { unfold first, tail_of. destruct mapd; [apply app_nil_r|]. unfold zsub. cbn [Z.to_nat skipn]. unfold zlen. rewrite Nat2Z.id, firstn_length.
    destruct (Nat.le_gt_cases (Z.to_nat READ) (length file)).
    - rewrite Nat.min_l by assumption. apply firstn_skipn.
    - rewrite Nat.min_r by lia. rewrite firstn_all2 by lia. rewrite skipn_all. apply app_nil_r. }
  apply (loop_ends alloc Zs code den file mapd Hd Hs mu Gr Hm); [apply zlen_nonneg | rewrite zlen_nil; lia | rewrite T; exact Hk].
Qed.
Print Assumptions C92_ends_partial.

(* A library in the manner of libbz2: bytes are copied until a zero byte; without input it waits for more.  [last] is a library in the manner of liblzma,
   which fails when it cannot get on. *)
Fixpoint upto (b : bytes) : option bytes := match b with [] => None | x :: r => if x =? 0 then Some [] else match upto r with Some s => Some (x :: s) | None => None end end.
Definition toy (fails : bool) (_ : unit) (inp : bytes) (room : Z) : zres * Z * bytes * unit :=
  match inp with
  | [] => (if fails then ZERR else ZOK, 0, [], tt)
  | x :: _ => if room <=? 0 then (ZOK, 0, [], tt) else if x =? 0 then (ZEND, 1, [], tt) else (ZOK, 1, [x], tt)
  end.
Lemma toy_ok : forall fails, decoder unit (toy fails) (fun _ => upto).
Proof.
  intros fails [] inp rest room Hr. destruct inp as [|x inp]; unfold toy.
  - destruct fails; repeat split; try reflexivity; try exact Hr.
    + intros H _. rewrite (H eq_refl). reflexivity.
    + cbn. destruct (upto rest); reflexivity.
  - destruct (Z.leb_spec room 0).
    + rewrite zlen_cons. pose proof (zlen_nonneg _ inp). split; [lia|]. split; [rewrite zlen_nil; lia|]. cbn [skipn Z.to_nat].
      destruct (upto ((x :: inp) ++ rest)); reflexivity.
    + destruct (Z.eqb_spec x 0) as [-> | N]; rewrite zlen_cons; pose proof (zlen_nonneg _ inp); (split; [lia|]); split.
      * rewrite zlen_nil. lia.
      * reflexivity.
      * rewrite zlen_cons, zlen_nil. lia.
      * change (Z.to_nat 1) with 1%nat. cbn. replace (x =? 0) with false by lia. destruct (upto (inp ++ rest)); reflexivity.
Qed.
Definition plenty (s n : Z) : bool := (s <? n) && (n <? 2 ^ 40).
Lemma plenty_ok : sane plenty /\ grows plenty.
Proof.
  split.
  - intros s n H. unfold plenty in H. lia.
  - intros size start n H1 H2 H. unfold bigger in H. revert H. generalize (if size =? 0 then start else u64 (size * 2)) as more. intros more.
    generalize (Z.to_nat (more / 1024)) as k. intros k. revert more. induction k as [|k IH]; intros more H; cbn [shrink] in H; destruct (plenty size more) eqn:P.
    + injection H as <-. unfold plenty in P. lia.
    + discriminate.
    + injection H as <-. unfold plenty in P. lia.
    + destruct (size + 1024 <=? more); [exact (IH _ H) | discriminate].
Qed.
Example C92_stream_nonvacuous :
  let f := BZ ++ [49; 50; 0; 7] in
  decoder unit (toy true) (fun _ => upto) /\ sane plenty /\ grows plenty /\ upto f = Some [66; 90; 104; 49; 50] /\
  inflate plenty unit (toy true) f true 20 tt [BZ] = Zok [66; 90; 104; 49; 50] /\
  inflate plenty unit (toy true) (BZ ++ [49; 50]) true 20 tt [BZ] = Zfail E_ZLIB /\
  inflate plenty unit (toy true) [1; 2; 3; 4; 5; 6] true 20 tt [BZ] = Zfail E_BADELF /\
  (forall z inp rest room c o z', 0 < room -> (inp = [] -> rest = []) -> toy true z inp room = (ZOK, c, o, z') ->
     (length (skipn (Z.to_nat c) inp ++ rest) < length (inp ++ rest))%nat).
Proof.
  cbn zeta. split; [apply toy_ok|]. split; [exact (proj1 plenty_ok)|]. split; [exact (proj2 plenty_ok)|].
  split; [reflexivity|]. split; [vm_compute; reflexivity|]. split; [vm_compute; reflexivity|]. split; [vm_compute; reflexivity|].
  intros z inp rest room c o z' Hr _ E. destruct inp as [|x inp]; [discriminate|]. cbn in E. replace (room <=? 0) with false in E by lia.
  destruct (x =? 0); [discriminate|]. injection E as <- <- _. change (Z.to_nat 1) with 1%nat. cbn. lia.
Qed.

(* A library that waits for more input, as libbz2 does, never ends for a file that is cut short. *)
Theorem C92_hang_refuted :
  exists file, decoder unit (toy false) (fun _ => upto) /\ sane plenty /\ grows plenty /\
    forall k, inflate plenty unit (toy false) file true k tt [BZ] = Zfuel.
Proof.
  exists (BZ ++ [49; 50]). split; [apply toy_ok|]. split; [exact (proj1 plenty_ok)|]. split; [exact (proj2 plenty_ok)|].
  assert (W : forall k, loop plenty unit (toy false) (BZ ++ [49; 50]) true k tt [] 5 [66; 90; 104; 49; 50] 10 = Zfuel).
  { induction k as [|k IH]; [reflexivity | exact IH]. }
  intros k. do 6 (destruct k as [|k]; [reflexivity|]). exact (W k).
Qed.
Print Assumptions C92_hang_refuted.

(* gzip: what is given is the beginning of the data, all of it if buffers that are made bigger are bigger. *)
Theorem C92_gzip_partial : forall alloc gzread direct k file d,
  (forall s n, alloc s n = true -> n < 2 ^ 32) -> gz_stream d gzread ->
  match gunzip alloc gzread direct k file with
  | Zok b => starts file GZ /\ (exists t, d = b ++ t) /\ (grows alloc -> b = d)
  | Zfail E_BADELF => ~ starts file GZ \/ direct = true
  | Zub => False
  | _ => True
  end.
Proof.
  intros alloc gzread direct k file d Ha Hg. unfold gunzip. destruct (no_magic file GZ) eqn:N.
  - left. intros W. apply starts_ok in W. congruence.
  - destruct direct; [right; reflexivity|]. pose proof (zlen_nonneg _ d).
    pose proof (gz_ok alloc gzread d Ha Hg k [] 0 ltac:(rewrite zlen_nil; lia) ltac:(rewrite zlen_nil; lia) eq_refl) as L.
    destruct (gz_loop alloc gzread k [] 0) as [b|e| |]; try exact L; [|destruct e; [destruct L | exact I | exact I]].
    destruct L as (L1 & L2 & L3). split; [apply starts_ok; exact N|]. split; [|exact L3].
    exists (skipn (Z.to_nat (zlen b)) d). unfold zsub in L2. cbn [Z.to_nat skipn] in L2. rewrite L2 at 1. symmetry. apply firstn_skipn.
Qed.
Print Assumptions C92_gzip_partial.

(* Data of less than 256 megabytes is given whole if memory suffices and zlib does not fail. *)
Theorem C92_gzip_whole : forall (alloc : Z -> Z -> bool) gzread file (d : bytes) k,
  (forall s n, n <= 2 ^ 31 -> alloc s n = true) -> zlen d < 2 ^ 28 ->
  (forall pos room, 0 <= pos <= zlen d -> 0 <= room -> gzread pos room = Some (zsub d pos room)) ->
  starts file GZ -> (length d + 3 <= k)%nat -> gunzip alloc gzread false k file = Zok d.
Proof.
  intros alloc gzread file d k Ha Hl Hg Hm Hk. unfold gunzip. apply starts_ok in Hm. rewrite Hm.
  apply (gz_whole alloc gzread d Ha Hl Hg k 0 0); [pose proof (zlen_nonneg _ d); lia | left; reflexivity | lia|].
  change (0 =? 0) with true. cbv iota. unfold zlen in *. lia.
Qed.
Print Assumptions C92_gzip_whole.

Definition ex_data : bytes := repeat 7 1500.
Definition ex_gz (pos room : Z) : option bytes := Some (zsub ex_data pos room).
Lemma ex_gz_ok : gz_stream ex_data ex_gz.
Proof.
  intros pos room b Hp Hr E. assert (X : zsub ex_data pos room = b) by (unfold ex_gz in E; congruence). rewrite <- X.
  assert (L : zlen (zsub ex_data pos room) = Z.min room (zlen ex_data - pos)) by (apply zlen_zsub; lia). rewrite L. split.
  - unfold zsub. destruct (Z.le_gt_cases room (zlen ex_data - pos)); [rewrite Z.min_l by lia; reflexivity|]. rewrite Z.min_r by lia.
    rewrite !firstn_all2; [reflexivity | | ]; rewrite skipn_length; unfold zlen in *; lia.
  - split; [lia|]. split; [lia|]. intros N. rewrite N, zlen_nil in L. lia.
Qed.
Example C92_gzip_nonvacuous :
  gz_stream ex_data ex_gz /\ starts (GZ ++ [8; 0]) GZ /\ gunzip plenty ex_gz false 5 (GZ ++ [8; 0]) = Zok ex_data.
Proof. split; [exact ex_gz_ok|]. split; [exists [8; 0]; split; [reflexivity | cbn; lia] | vm_compute; reflexivity]. Qed.

(* When memory is short the buffer is made bigger by nothing, zlib has no room, and the beginning of the data is given as if it were all. *)
Theorem C92_memory_refuted :
  exists alloc b, (forall s n, alloc s n = true <-> n <= 1024) /\ gz_stream ex_data ex_gz /\
    gunzip alloc ex_gz false 5 (GZ ++ [8; 0]) = Zok b /\ zlen b = 1024 /\ zlen ex_data = 1500.
Proof.
  exists (fun _ n => n <=? 1024), (zsub ex_data 0 1024). split; [intros s n; lia|]. split; [exact ex_gz_ok|]. split; [vm_compute; reflexivity | split; reflexivity].
Qed.
Print Assumptions C92_memory_refuted.

(* The format is found by the first bytes, and only one can be meant; no data, or an empty file inside, is not an ELF file. *)
Theorem C92_formats : forall gun bun lun f b,
  (forall m, In m [GZ] -> ~ starts f m -> gun f = Zfail E_BADELF) ->
  (~ starts f BZ -> bun f = Zfail E_BADELF) ->
  (~ starts f XZ -> ~ starts f LZ -> lun f = Zfail E_BADELF) ->
  (decompress gun bun lun f = Zok b ->
     b <> [] /\ ((starts f GZ /\ gun f = Zok b) \/ (starts f BZ /\ bun f = Zok b) \/ ((starts f XZ \/ starts f LZ) /\ lun f = Zok b))) /\
  (starts f GZ -> gun f = Zok b -> b <> [] -> decompress gun bun lun f = Zok b) /\
  (starts f BZ -> bun f = Zok b -> b <> [] -> decompress gun bun lun f = Zok b) /\
  (starts f XZ \/ starts f LZ -> lun f = Zok b -> b <> [] -> decompress gun bun lun f = Zok b) /\
  (starts f GZ -> forall e, gun f = Zfail e -> e <> E_BADELF -> decompress gun bun lun f = Zfail e).
Proof.
  intros gun bun lun f b Hg Hb Hl. unfold decompress.
  assert (S0 : forall m, starts f m -> (zlen f =? 0) = false).
  { intros m (t & -> & L). rewrite zlen_app. pose proof (zlen_nonneg _ m). unfold zlen in *. lia. }
  assert (Ne : b <> [] -> (zlen b =? 0) = false) by (destruct b as [|x w]; [congruence | rewrite zlen_cons; pose proof (zlen_nonneg _ w); lia]).
  assert (Ex : forall m, {starts f m} + {~ starts f m}).
  { intros m. destruct (no_magic f m) eqn:N; [right; intros W; apply starts_ok in W; congruence | left; apply starts_ok; exact N]. }
  assert (G0 : ~ starts f GZ -> gun f = Zfail E_BADELF) by (apply Hg; left; reflexivity).
  assert (D : forall a c, hd_error a <> hd_error c -> a <> [] -> c <> [] -> starts f a -> starts f c -> False).
  { intros a c N Na Nc (t & -> & _) (u & E & _). destruct a, c; try congruence. cbn in *. congruence. }
  assert (DGB : starts f GZ -> ~ starts f BZ) by (intros U W; exact (D GZ BZ ltac:(discriminate) ltac:(discriminate) ltac:(discriminate) U W)).
  assert (DGX : starts f GZ -> ~ starts f XZ) by (intros U W; exact (D GZ XZ ltac:(discriminate) ltac:(discriminate) ltac:(discriminate) U W)).
  assert (DGL : starts f GZ -> ~ starts f LZ) by (intros U W; exact (D GZ LZ ltac:(discriminate) ltac:(discriminate) ltac:(discriminate) U W)).
  assert (DBX : starts f BZ -> ~ starts f XZ) by (intros U W; exact (D BZ XZ ltac:(discriminate) ltac:(discriminate) ltac:(discriminate) U W)).
  assert (DBL : starts f BZ -> ~ starts f LZ) by (intros U W; exact (D BZ LZ ltac:(discriminate) ltac:(discriminate) ltac:(discriminate) U W)).
  split; [|split; [|split; [|split]]].
  - destruct (zlen f =? 0); [discriminate|]. intros H. destruct (or_else (or_else (gun f) (bun f)) (lun f)) as [x|e| |] eqn:E; try discriminate.
    destruct (zlen x =? 0) eqn:Zx; [discriminate|]. injection H as ->. split; [intros ->; discriminate|].
    destruct (Ex GZ) as [A | A].
    + destruct (gun f) as [x|[]| |] eqn:Gf; cbn in E; try discriminate; [left; split; [exact A | exact E]|].
      rewrite (Hb (DGB A)) in E. cbn in E.
      rewrite (Hl (DGX A) (DGL A)) in E. discriminate.
    + rewrite (G0 A) in E. cbn in E. destruct (Ex BZ) as [B | B].
      * destruct (bun f) as [x|[]| |] eqn:Bf; cbn in E; try discriminate; [right; left; split; [exact B | exact E]|].
        rewrite (Hl (DBX B) (DBL B)) in E. discriminate.
      * rewrite (Hb B) in E. cbn in E. right. right. destruct (Ex XZ) as [C | C]; [split; [left; exact C | exact E]|].
        destruct (Ex LZ) as [C2 | C2]; [split; [right; exact C2 | exact E]|]. rewrite (Hl C C2) in E. discriminate.
  - intros S1 E N. rewrite (S0 _ S1), E. cbn. rewrite (Ne N). reflexivity.
  - intros S1 E N. rewrite (S0 _ S1), (G0 (fun W => DGB W S1)), E. cbn. rewrite (Ne N). reflexivity.
  - intros S1 E N. assert (Q : (zlen f =? 0) = false) by (destruct S1 as [S1 | S1]; exact (S0 _ S1)). rewrite Q.
    rewrite G0 by (intros W; destruct S1 as [S1 | S1]; [exact (DGX W S1) | exact (DGL W S1)]). rewrite Hb by (intros W; destruct S1 as [S1 | S1]; [exact (DBX W S1) | exact (DBL W S1)]).
    rewrite E. cbn. rewrite (Ne N). reflexivity.
  - intros S1 e E N. rewrite (S0 _ S1), E. destruct e; [congruence | reflexivity | reflexivity].
Qed.
Print Assumptions C92_formats.
Example C92_formats_nonvacuous :
  let bun f := inflate plenty unit (toy true) f true 20 tt [BZ] in let bad (_ : bytes) := Zfail E_BADELF in
  let f := BZ ++ [49; 50; 0; 7] in starts f BZ /\ decompress bad bun bad f = Zok [66; 90; 104; 49; 50].
Proof. cbn zeta. split; [exists [49; 50; 0; 7]; split; [reflexivity | cbn; lia] | vm_compute; reflexivity]. Qed.

(* The payload of a boot image, by the boot protocol of Linux: it lies in the file, behind the header; and mapped or not it is the same. *)
Theorem C92_image : forall mapd f off,
  image_header mapd f = Some off <->
  592 < zlen f /\ le_value (zsub f 510 2) = 43605 /\ le_value (zsub f 514 4) = 1400005704 /\ 520 <= le_value (zsub f 518 2) /\
  (let sects := le_value (zsub f 497 1) in
   off = (le_value (zsub f 584 4) + ((if sects =? 0 then 4 else sects) + 1) * 512) mod 2 ^ 32) /\
  592 < off < zlen f /\ off + le_value (zsub f 588 4) <= zlen f.
Proof.
  intros mapd f off. unfold image_header. destruct (Z.ltb_spec 592 (zlen f)) as [L | L]; [|split; [discriminate | lia]].
  assert (X : (if mapd then header_at f f 0 else header_at f (zsub f 496 96) 496) = header_at f f 0).
  { destruct mapd; [reflexivity|]. assert (W : forall o n, 496 <= o -> 0 <= n -> o + n <= 592 -> word (zsub f 496 96) (o - 496) n = word f (o - 0) n).
    { intros o n H1 H2 H3. unfold word. f_equal. unfold zsub. rewrite skipn_firstn_comm, firstn_firstn, skip_add. f_equal; [lia|]. f_equal. lia. }
    unfold header_at. rewrite !W by lia. reflexivity. }
  rewrite X. unfold header_at, word. rewrite !Z.sub_0_r. unfold u32. change two32 with (2 ^ 32). cbn zeta.
  set (w1 := le_value (zsub f 510 2)). set (w2 := le_value (zsub f 514 4)). set (w3 := le_value (zsub f 518 2)). set (w4 := le_value (zsub f 497 1)).
  set (w5 := le_value (zsub f 588 4)). set (o := (le_value (zsub f 584 4) + ((if w4 =? 0 then 4 else w4) + 1) * 512) mod 2 ^ 32).
  destruct ((w1 =? 43605) && (w2 =? 1400005704) && (520 <=? w3)) eqn:C.
  - destruct ((592 <? o) && (o <? zlen f) && (w5 <=? zlen f - o)) eqn:D.
    + split; [intros E; injection E as <-; repeat split; lia | intros (_ & _ & _ & _ & -> & _); reflexivity].
    + split; [discriminate | intros (_ & _ & _ & _ & -> & H1 & H2); lia].
  - split; [discriminate | intros (_ & H1 & H2 & H3 & _); lia].
Qed.
Print Assumptions C92_image.
Definition ex_image : bytes :=
  repeat 0 497 ++ [1] ++ repeat 0 12 ++ [85; 170] ++ [0; 0] ++ [72; 100; 114; 83] ++ [8; 2] ++ repeat 0 64 ++ [0; 0; 0; 0] ++ [3; 0; 0; 0] ++ repeat 0 432 ++ [127; 69; 76; 70].
Example C92_image_nonvacuous : image_header true ex_image = Some 1024 /\ image_header false ex_image = Some 1024 /\ zsub ex_image 1024 4 = [127; 69; 76; 70].
Proof. vm_compute. repeat split. Qed.

(* What is opened is the file that is meant, of a kind that was asked for; such a file is opened; the descriptor is closed if it is not needed any more,
   and on failure if the caller wants that. *)
Theorem C92_open : forall kind unpack mapd cof ar never f,
  (forall b, fst (open_elf kind unpack mapd cof ar never f) = Zok b <->
     meant kind unpack mapd f b /\ (kind b = K_ELF \/ kind b = K_AR /\ ar = true)) /\
  (forall b c, meant kind unpack mapd f b -> meant kind unpack mapd f c -> b = c) /\
  (snd (open_elf kind unpack mapd cof ar false f) = true <->
     (exists b, fst (open_elf kind unpack mapd cof ar false f) = Zok b /\
        (unpack f = Zok b /\ kind f = K_NONE \/
         exists off, kind f = K_NONE /\ image_header mapd f = Some off /\ unpack f = Zfail E_BADELF /\ kind (skipn (Z.to_nat off) f) = K_NONE /\ unpack (skipn (Z.to_nat off) f) = Zok b)) \/
     (cof = true /\ forall b, fst (open_elf kind unpack mapd cof ar false f) <> Zok b)) /\
  (cof = false -> snd (open_elf kind unpack mapd cof ar true f) = false).
Proof.
  intros kind unpack mapd cof ar never f.
  assert (Hz : forall off, image_header mapd f = Some off -> zsub f off (zlen f - off) = skipn (Z.to_nat off) f).
  { intros off E. apply C92_image in E. destruct E as (_ & _ & _ & _ & _ & B & _). unfold zsub. apply firstn_all2. rewrite skipn_length. unfold zlen. lia. }
  assert (Fst : forall nv b, fst (open_elf kind unpack mapd cof ar nv f) = Zok b <-> meant kind unpack mapd f b /\ (kind b = K_ELF \/ kind b = K_AR /\ ar = true)).
  { intros nv b. unfold open_elf, what_kind. split.
    - destruct (kind f) eqn:Kf.
      + destruct (unpack f) as [x|[]| |] eqn:U; cbn; try discriminate.
        * destruct (kind x) eqn:Kx; destruct ar; cbn; try discriminate; intros E; injection E as <-; (split; [apply Itself, Packed; assumption | rewrite Kx; auto]).
        * destruct (image_header mapd f) as [off|] eqn:Im; [|discriminate]. rewrite (Hz off eq_refl). set (p := skipn (Z.to_nat off) f).
          destruct (kind p) eqn:Kp.
          -- destruct (unpack p) as [x|e| |] eqn:Up; cbn; try discriminate.
             destruct (kind x) eqn:Kx; destruct ar; cbn; try discriminate; intros E; injection E as <-; (split; [apply (Image _ _ _ _ off); try assumption; apply Packed; assumption | rewrite Kx; auto]).
          -- cbn. destruct ar; cbn; try discriminate; intros E; injection E as <-; (split; [apply (Image _ _ _ _ off); try assumption; apply Plain; congruence | rewrite Kp; auto]).
          -- cbn. intros E; injection E as <-; (split; [apply (Image _ _ _ _ off); try assumption; apply Plain; congruence | rewrite Kp; auto]).
      + cbn. destruct ar; cbn; try discriminate. intros E. injection E as <-. split; [apply Itself, Plain; congruence | rewrite Kf; auto].
      + cbn. intros E. injection E as <-. split; [apply Itself, Plain; congruence | rewrite Kf; auto].
    - intros (M & K). assert (Q : (match kind b with K_ELF => true | K_AR => ar | K_NONE => false end) = true) by (destruct K as [-> | (-> & ->)]; reflexivity).
      inversion M as [x Un | off x K1 U Im Un]; subst.
      + inversion Un as [N | y N U]; subst.
        * destruct (kind b) eqn:Kf; [congruence | |]; cbn in *; rewrite ?Q; reflexivity.
        * rewrite N, U. cbn. rewrite Q. reflexivity.
      + rewrite K1, U, Im, (Hz off Im). inversion Un as [N | y N U2]; subst.
        * set (p := skipn (Z.to_nat off) f) in *. destruct (kind p) eqn:Kp; [congruence | |]; cbn in *; rewrite ?Q; reflexivity.
        * rewrite N, U2. cbn. rewrite Q. reflexivity. }
  split; [exact (Fst never)|]. split; [|split].
  - assert (Un : forall g b c, unpacked kind unpack g b -> unpacked kind unpack g c -> b = c).
    { intros g b c H1 H2. destruct H1, H2; try congruence. }
    intros b c H1 H2. destruct H1 as [b U1 | o1 b K1 P1 I1 U1]; destruct H2 as [c U2 | o2 c K2 P2 I2 U2].
    + exact (Un _ _ _ U1 U2).
    + exfalso. destruct U1 as [N | y N U]; congruence.
    + exfalso. destruct U2 as [N | y N U]; congruence.
    + rewrite I1 in I2. injection I2 as <-. exact (Un _ _ _ U1 U2).
  - unfold open_elf, what_kind. destruct (kind f) eqn:Kf.
    + destruct (unpack f) as [x|e| |] eqn:U.
      * cbn. destruct (match kind x with K_ELF => true | K_AR => ar | K_NONE => false end); cbn.
        -- split; [intros _; left; exists x; split; [reflexivity | left; split; reflexivity] | reflexivity].
        -- split; [intros ->; right; split; [reflexivity | intros b; discriminate] | intros [(b & E & _) | (-> & _)]; [discriminate | reflexivity]].
      * destruct e; [destruct (image_header mapd f) as [off|] eqn:Im|..].
        -- rewrite (Hz off eq_refl). set (p := skipn (Z.to_nat off) f). destruct (kind p) eqn:Kp.
           ++ destruct (unpack p) as [x|e| |] eqn:Up.
              ** destruct (match kind x with K_ELF => true | K_AR => ar | K_NONE => false end); cbn.
                 --- split; [intros _; left; exists x; split; [reflexivity | right; exists off; fold p; repeat split; assumption] | reflexivity].
                 --- split; [intros ->; right; split; [reflexivity | intros b; discriminate] | intros [(b & E & _) | (-> & _)]; [discriminate | reflexivity]].
              ** cbn. split; [intros ->; right; split; [reflexivity | intros b; discriminate] | intros [(b & E & _) | (-> & _)]; [discriminate | reflexivity]].
              ** cbn. split; [intros ->; right; split; [reflexivity | intros b; discriminate] | intros [(b & E & _) | (-> & _)]; [discriminate | reflexivity]].
              ** cbn. split; [intros ->; right; split; [reflexivity | intros b; discriminate] | intros [(b & E & _) | (-> & _)]; [discriminate | reflexivity]].
           ++ cbn. destruct ar; cbn.
              ** split; [discriminate|]. intros [(b & _ & [(W & _) | (o & _ & W & _ & V & _)]) | (_ & W)]; [discriminate | injection W as <-; fold p in V; congruence | destruct (W p); reflexivity].
              ** split; [intros ->; right; split; [reflexivity | intros b; discriminate] | intros [(b & E & _) | (-> & _)]; [discriminate | reflexivity]].
           ++ cbn. split; [discriminate|]. intros [(b & _ & [(W & _) | (o & _ & W & _ & V & _)]) | (_ & W)]; [discriminate | injection W as <-; fold p in V; congruence | destruct (W p); reflexivity].
        -- cbn. split; [intros ->; right; split; [reflexivity | intros b; discriminate] | intros [(b & E & _) | (-> & _)]; [discriminate | reflexivity]].
        -- cbn. split; [intros ->; right; split; [reflexivity | intros b; discriminate] | intros [(b & E & _) | (-> & _)]; [discriminate | reflexivity]].
        -- cbn. split; [intros ->; right; split; [reflexivity | intros b; discriminate] | intros [(b & E & _) | (-> & _)]; [discriminate | reflexivity]].
      * cbn. split; [intros ->; right; split; [reflexivity | intros b; discriminate] | intros [(b & E & _) | (-> & _)]; [discriminate | reflexivity]].
      * cbn. split; [intros ->; right; split; [reflexivity | intros b; discriminate] | intros [(b & E & _) | (-> & _)]; [discriminate | reflexivity]].
    + cbn. destruct ar; cbn.
      * split; [discriminate|]. intros [(b & _ & [(_ & W) | (o & W & _)]) | (_ & W)]; [discriminate | discriminate | destruct (W f); reflexivity].
      * split; [intros ->; right; split; [reflexivity | intros b; discriminate] | intros [(b & E & _) | (-> & _)]; [discriminate | reflexivity]].
    + cbn. split; [discriminate|]. intros [(b & _ & [(_ & W) | (o & W & _)]) | (_ & W)]; [discriminate | discriminate | destruct (W f); reflexivity].
  - intros ->. unfold open_elf. match goal with |- snd (match ?x with _ => _ end) = _ => destruct x as [[r k] may] end. reflexivity.
Qed.
Print Assumptions C92_open.
Example C92_open_nonvacuous :
  let kind (b : bytes) := match b with 127 :: _ => K_ELF | _ => K_NONE end in
  let unpack (b : bytes) := match b with 31 :: 139 :: r => Zok r | _ => Zfail E_BADELF end in
  open_elf kind unpack true true false false ex_image = (Zok [127; 69; 76; 70], false) /\
  open_elf kind unpack true true false false [31; 139; 127; 1] = (Zok [127; 1], true) /\
  open_elf kind unpack true true false false [31; 139; 1] = (Zfail E_BADELF, true).
Proof. vm_compute. repeat split. Qed.
