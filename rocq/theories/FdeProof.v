(* The lookup finds the FDE covering an address, whatever was looked up before. *)
From Verif Require Import Base LebModel LebSpec LebProof DwModel Slice CfiModel CfiSpec CfiProof NcfiModel NcfiSpec NcfiProof FdeModel FdeSpec.

(* ------------------------------------------------------------------ *)
(* CIEs *)
Lemma says_nonneg : forall c z s b r n g, says c z s b r n g -> 0 <= n.
Proof.
  intros c z s b r n g H. induction H as [| |e w s b r n g W H IH| |]; try lia. destruct z; [lia|]. 
  unfold fixed_size in W. destruct (e =? 255); [injection W as <-; lia|]. unfold addr_width in W.
  destruct (Z.land e 7) as [|[[[?|?|]|[?|?|]|]|[[?|?|]|[?|?|]|]|]|?]; try discriminate; injection W as <-; try lia. destruct (c_c32 c); lia.
Qed.
Lemma intern_aug_at : forall c z s b r n g, says c z s b r n g -> forall fuel ap data signal fs e l,
  at_ (c_mem c) ap (s ++ [0]) -> at_ (c_mem c) data b -> zlen s < Z.of_nat fuel -> 0 <= fs -> fs + n < two64 ->
  exists l', intern_aug c fuel ap data z signal fs e l = Ok (z, (signal || g)%bool, fs + n, match r with Some x => x | None => e end, l').
Proof.
  intros c z s b r n g H. 
  induction H as [data0|e0 s b r n g H IH|e0 w s b r n g W H IH|e0 ptr s b r n g F H IH|s b r n g H IH];
    intros fuel ap data signal fs e l A D N F0 F1; (destruct fuel as [|fuel]; [match type of N with zlen ?l < _ => pose proof (zlen_nonneg _ l) end; lia|]);
    cbn [intern_aug]; cbn [app] in A; rewrite (byte_at_at _ _ _ _ A); cbn [obind Z.eqb Pos.eqb]; try rewrite zlen_cons in N.
  - exists l. rewrite orb_false_r, Z.add_0_r. reflexivity.
  - rewrite (byte_at_at _ _ _ _ D). cbn [obind].
    destruct (IH fuel (ap + 1) (data + 1) signal fs e0 l (at_shift _ _ _ _ A) (at_shift _ _ _ _ D)) as [l' ->]; try lia.
    exists l'. destruct r; reflexivity.
  - rewrite (byte_at_at _ _ _ _ D). cbn [obind]. pose proof (says_nonneg _ _ _ _ _ _ _ H).
    assert (E : (if z then Ok 0 else encoded_value_size c e0 None) = Ok w).
    { destruct z; [rewrite W; reflexivity|]. apply size_fixed, W. }
    rewrite E. cbn [obind].
    assert (0 <= w) by (pose proof (says_nonneg c z (76 :: s) (e0 :: b) r (w + 0) g); destruct z; [lia|]; pose proof (says_nonneg c false [76] [e0] None (w + 0) false ltac:(apply S_lsda; [exact W|constructor])); lia).
    rewrite u64_small by lia.
    destruct (IH fuel (ap + 1) (data + 1) signal (fs + w) e e0 (at_shift _ _ _ _ A) (at_shift _ _ _ _ D)) as [l' ->]; try lia.
    exists l'. do 2 f_equal. f_equal. f_equal. lia.
  - rewrite (byte_at_at _ _ _ _ D). cbn [obind]. rewrite (size_fixed _ _ _ _ F). cbn [obind].
    destruct (IH fuel (ap + 1) (data + 1 + zlen ptr) signal fs e l (at_shift _ _ _ _ A) (at_app2 _ _ _ _ (at_shift _ _ _ _ D))) as [l' ->]; try lia.
    exists l'. reflexivity.
  - destruct (IH fuel (ap + 1) data true fs e l (at_shift _ _ _ _ A) D) as [l' ->]; try lia.
    exists l'. rewrite orb_true_r. reflexivity.
Qed.

Lemma canon_enc : forall c e p a b, ptr_encodes c e p a b ->
  ptr_encodes c (if Z.land e 15 =? 0 then Z.lor e (if c_c32 c then 3 else 4) else e) p a b.
Proof.
  intros c e p a b (ap & f & base & v & -> & B & F & ->).
  destruct (Z.land (ap + f) 15 =? 0) eqn:K; [|exists ap, f, base, v; auto].
  assert (f = 0 /\ b = enc (c_fle c) (addr_width c) v /\ 0 <= v < 256 ^ addr_width c) as (-> & -> & V).
  { destruct B; destruct F; cbn in K; try discriminate; auto. }
  exists ap, (if c_c32 c then 3 else 4), base, v. unfold addr_width in *. destruct (c_c32 c).
  - split; [destruct B; reflexivity|]. split; [exact B|]. split; [|reflexivity]. apply F_u4. exact V.
  - split; [destruct B; reflexivity|]. split; [exact B|]. split; [|reflexivity]. apply F_u8. exact V.
Qed.
Lemma canon_low : forall c e v b, fmt_encodes c (Z.land e 15) v b ->
  fmt_encodes c (Z.land (if Z.land e 15 =? 0 then Z.lor e (if c_c32 c then 3 else 4) else e) 15) v b.
Proof.
  intros c e v b F. destruct (Z.land e 15 =? 0) eqn:K; [|exact F]. apply Z.eqb_eq in K. rewrite K in F.
  rewrite Z.land_lor_distr_l, K. rewrite Z.lor_0_l. inversion F as [v0 V| | | | | | | |]; subst. unfold addr_width in *. destruct (c_c32 c).
  - change (Z.land 3 15) with 3. apply F_u4, V.
  - change (Z.land 4 15) with 4. apply F_u8, V.
Qed.

(* the value interned for the CIE at off *)
Definition cie_val (c : cfi) (off : Z) (k : icie) : Prop :=
  exists next i, next_cfi c off = Ok (NEntry next (ECie i)) /\ new_cie c off i = Ok k.
Lemma cie_val_det : forall c off k k', cie_val c off k -> cie_val c off k' -> k = k'.
Proof. intros c off k k' (n & i & E & K) (n' & i' & E' & K'). rewrite E in E'. injection E' as <- <-. rewrite K in K'. injection K' as <-. reflexivity. Qed.

Lemma new_cie_at : forall c off a last i e sized fs g, describes c last (ACIE a) (ECie i) -> cie_means c a e sized fs g ->
  exists k, new_cie c off i = Ok k /\ ic_off k = off /\ ic_caf k = a_caf a /\ ic_daf k = a_daf a /\ ic_ra k = a_ra a /\
    at_ (c_mem c) (ic_ins k) (a_ins a) /\ ic_ins k + zlen (a_ins a) = ic_end k /\ ic_end k = last /\ ic_sized k = sized /\ ic_fsize k = fs /\ ic_signal k = g /\
    ic_enc k = if Z.land e 15 =? 0 then Z.lor e (if c_c32 c then 3 else 4) else e.
Proof.
  intros c off a last i e sized fs g (A & C1 & C2 & C3 & D & C4 & L1 & L2 & I1 & I2 & I3) M. unfold new_cie.
  assert (L : i_aug i + zlen (a_aug a) < i_end i) by (pose proof (zlen_nonneg _ (a_data a)); pose proof (zlen_nonneg _ (a_ins a)); lia).
  pose proof (zlen_nonneg _ (a_aug a)).
  destruct M as [s r n g EA SA|r n g SA N|EA].
  - rewrite EA in A, L. cbn [app] in A. rewrite zlen_cons in L. pose proof (zlen_nonneg _ s).
    replace (Z.to_nat (i_end i - i_aug i)) with (S (Z.to_nat (i_end i - i_aug i - 1))) by lia. cbn [intern_aug].
    rewrite (byte_at_at _ _ _ _ A). cbn [obind Z.eqb Pos.eqb].
    assert (forall c s b r n g, says c true s b r n g -> n = 0) as Z0.
    { intros ? ? ? ? ? ? HS. induction HS as [| |? w ? ? ? ? ? W HS IH| |]; auto. lia. }
    pose proof (Z0 _ _ _ _ _ _ SA). subst n.
    destruct (intern_aug_at c true s (a_data a) r 0 g SA (Z.to_nat (i_end i - i_aug i - 1)) (i_aug i + 1) (i_adata i) false 0 0 255 (at_shift _ _ _ _ A) D) as [l' ->]; try lia.
    cbn [obind]. eexists. split; [reflexivity|]. cbn. sp; auto; lia.
  - destruct (intern_aug_at c false (a_aug a) (a_data a) r n g SA (Z.to_nat (i_end i - i_aug i)) (i_aug i) (i_adata i) false 0 0 255 A D) as [l' ->]; try lia.
    cbn [obind]. eexists. split; [reflexivity|]. cbn. sp; auto; lia.
  - rewrite EA in A, L. change (zlen [101; 104]) with 2 in L.
    replace (Z.to_nat (i_end i - i_aug i)) with (S (Z.to_nat (i_end i - i_aug i - 1))) by lia. cbn [intern_aug].
    cbn [app] in A. rewrite (byte_at_at _ _ _ _ A). cbn [obind Z.eqb Pos.eqb]. eexists. split; [reflexivity|]. cbn. sp; auto; lia.
Qed.

(* an entry of the list, in the section *)
Lemma entries_in : forall c off es b, entries_bytes c off es b -> forall o x, In (o, x) es -> at_ (c_mem c) off b ->
  exists b', entry_bytes c o x b' /\ at_ (c_mem c) o b' /\ off <= o /\ o + zlen b' <= off + zlen b.
Proof.
  intros c off es b H. induction H as [off|off x b l r E EB IH]; intros o y I A; [destruct I|].
  rewrite zlen_app. pose proof (zlen_nonneg _ r). pose proof (zlen_nonneg _ b). destruct I as [I|I].
  - injection I as <- <-. exists b. split; [exact E|]. split; [exact (at_app1 _ _ _ _ A)|]. lia.
  - destruct (IH o y I (at_app2 _ _ _ _ A)) as (b' & B1 & B2 & B3 & B4). exists b'. split; [exact B1|]. split; [exact B2|]. lia.
Qed.
Lemma entry_bytes_pos : forall c o x b, entry_bytes c o x b -> 8 < zlen b.
Proof.
  intros c o x b (d64 & v & body & B & _ & _ & _ & ->). rewrite !zlen_app. unfold length_bytes, osize.
  assert (0 < zlen body).
  { destruct x as [a|co contents]; cbn [body_of] in B; [|apply B]. destruct B. cbn [app]. rewrite zlen_cons.
    match goal with |- 0 < 1 + zlen ?l => pose proof (zlen_nonneg _ l) end. lia. }
  destruct d64; rewrite ?zlen_app, !zlen_enc by lia; lia.
Qed.

Section Find.
Variable c : cfi.
Variable es : list (Z * aentry).
Variable frames : list aframe.
Hypothesis HH : holds c es.
Hypothesis FR : frames_of c es frames.

Lemma entry_next : forall o x, In (o, x) es -> exists b r, entry_bytes c o x b /\ at_ (c_mem c) o b /\ 0 <= o /\ o + zlen b <= c_dsize c /\
  next_cfi c o = Ok (NEntry (o + zlen b) r) /\ describes c (o + zlen b) x r.
Proof using HH FR.
  intros o x I. destruct HH as (b & EB & A & L & D & _). destruct (entries_in _ _ _ _ EB o x I A) as (b' & B1 & B2 & B3 & B4).
  destruct (next_cfi_at c o x b' B1 B2 ltac:(lia) D) as (r & R1 & R2). exists b', r. sp; auto; lia.
Qed.

(* ---- one FDE ---- *)
Definition mkfde (k : icie) (s e : Z) : option fde :=
  match read_encoded_value c (ic_enc k) s with
  | Ok (st, p) =>
    match read_encoded_value c (Z.land (ic_enc k) 15) p with
    | Ok (n, p) =>
      if u64 (n + st) <=? st then None
      else if ic_sized k then
        match get_uleb128 (c_mem c) p e with
        | Ok (len, p) => if u64 (e - p) <? len then None else Some (Fde k st (u64 (n + st)) (p + len) e)
        | _ => None
        end
      else Some (Fde k st (u64 (n + st)) (p + ic_fsize k) e)
    | _ => None
    end
  | _ => None
  end.
Definition fde_val (off : Z) (g : fde) : Prop :=
  exists next ptr s e k, next_cfi c off = Ok (NEntry next (EFde ptr s e)) /\ cie_val c ptr k /\ mkfde k s e = Some g.
Lemma fde_val_det : forall off g g', fde_val off g -> fde_val off g' -> g = g'.
Proof using.
  clear. intros off g g' (n & ptr & s & e & k & N & K & M) (n' & ptr' & s' & e' & k' & N' & K' & M').
  rewrite N in N'. injection N' as <- <- <- <-. rewrite (cie_val_det _ _ _ _ K' K) in M'. rewrite M in M'. injection M' as <-. reflexivity.
Qed.

Lemma cie_in : forall co a, In (co, ACIE a) es -> forall e sized fs g, cie_means c a e sized fs g ->
  exists next i k, next_cfi c co = Ok (NEntry next (ECie i)) /\ new_cie c co i = Ok k /\
    ic_off k = co /\ ic_caf k = a_caf a /\ ic_daf k = a_daf a /\ ic_ra k = a_ra a /\
    at_ (c_mem c) (ic_ins k) (a_ins a) /\ ic_ins k + zlen (a_ins a) = ic_end k /\ ic_end k <= c_dsize c /\ ic_sized k = sized /\ ic_fsize k = fs /\ ic_signal k = g /\
    ic_enc k = if Z.land e 15 =? 0 then Z.lor e (if c_c32 c then 3 else 4) else e.
Proof using HH FR.
  intros co a I e sized fs g M. destruct (entry_next _ _ I) as (b & r & _ & _ & _ & BL & N & D).
  destruct r as [i|]; [|destruct D]. destruct (new_cie_at c co a _ i e sized fs g D M) as (k & K & K1 & K2 & K3 & K4 & K5 & K6 & KE & K7). exists (co + zlen b), i, k. sp; try assumption; [lia|apply K7..].
Qed.

Lemma frame_val : forall f, In f frames -> exists next s e k,
  next_cfi c (r_off f) = Ok (NEntry next (EFde (r_cie f) s e)) /\ cie_val c (r_cie f) k /\
  (exists a, In (r_cie f, ACIE a) es) /\
  if 0 <? r_len f
  then exists g, fde_val (r_off f) g /\ is_frame c f g /\
    (forall h h', find_cie c h (r_cie f) = Ok (Some k, h') -> intern_fde c h (r_cie f) s e = Ok (let '(g', h'') := tsearch_fde h' g in (IFde g', h'')))
  else forall h h', find_cie c h (r_cie f) = Ok (Some k, h') -> intern_fde c h (r_cie f) s e = Ok (ISkip, h').
Proof using HH FR.
  intros f I. destruct FR as (_ & FM & _). destruct (FM f I) as (contents & b & en & sized & fs & sg & sb & lb & ab & I1 & I2 & EB & A & AL & M & EC & P & F & AU & L0 & L1).
  clear FM. assert (D : c_dsize c < two63) by (destruct HH as (? & _ & _ & _ & D & _); exact D).
  destruct (next_cfi_at c _ _ _ EB A AL D) as (r & N & DE). destruct r as [|ptr s e]; [destruct DE|]. destruct DE as (-> & AC & SE & EE).
  destruct (cie_in _ _ I2 _ _ _ _ M) as (nx & i & k & N2 & NK & K1 & K2 & K3 & K4 & K5 & K6 & KE & K7 & K8 & K9 & K10).
  assert (KV : cie_val c (r_cie f) k) by (exists nx, i; auto).
  exists (r_off f + zlen b), s, e, k. split; [exact N|]. split; [exact KV|]. split; [eexists; exact I2|].
  replace (r_off f + zlen b - zlen contents) with s in P by lia.
  assert (ST : 0 <= r_start f < two64) by (destruct P as (? & ? & ? & ? & _ & _ & _ & ->); apply Z.mod_pos_bound; lia).
  rewrite EC in AC. assert (A1 := at_app2 _ _ _ _ AC). assert (A2 := at_app2 _ _ _ _ A1). assert (A3 := at_app2 _ _ _ _ A2).
  assert (SE' : s + zlen sb + zlen lb + zlen ab + zlen (r_ins f) = r_off f + zlen b) by (rewrite <- SE, EC, !zlen_app; lia).
  pose proof (zlen_nonneg _ sb). pose proof (zlen_nonneg _ lb). pose proof (zlen_nonneg _ ab). pose proof (zlen_nonneg _ (r_ins f)). pose proof (at_bound _ _ _ AC) as [S0 _].
  assert (R1 : read_encoded_value c (ic_enc k) s = Ok (r_start f, s + zlen sb)).
  { apply read_encoded_at; [rewrite K10; apply canon_enc, P|exact (at_app1 _ _ _ _ AC)|lia]. }
  assert (R2 : read_encoded_value c (Z.land (ic_enc k) 15) (s + zlen sb) = Ok (r_len f, s + zlen sb + zlen lb)).
  { apply read_encoded_at; [|exact (at_app1 _ _ _ _ A1)|lia]. exists 0, (Z.land (ic_enc k) 15), 0, (r_len f).
    split; [reflexivity|]. split; [constructor|]. split; [rewrite K10; apply canon_low, F|]. rewrite Z.mod_small; lia. }
  assert (E1 : u64 (r_len f + r_start f) = r_start f + r_len f) by (rewrite u64_small; lia).
  assert (IF0 : is_frame c f (Fde k (r_start f) (r_start f + r_len f) (s + zlen sb + zlen lb + zlen ab) e)).
  { unfold is_frame. cbn. sp; auto; try lia. exists en, sized, fs. rewrite K9. split; [exact M|]. intros p x bb PP. rewrite K10. apply canon_enc, PP. }
  destruct (0 <? r_len f) eqn:LZ.
  - exists (Fde k (r_start f) (r_start f + r_len f) (s + zlen sb + zlen lb + zlen ab) e).
    assert (LE : (u64 (r_len f + r_start f) <=? r_start f) = false) by lia.
    destruct sized.
    + destruct AU as (n & data & U & EQ). subst ab.
      pose proof (uleb_len _ _ U). pose proof (zlen_nonneg _ data). rewrite zlen_app in *.
      assert (G : get_uleb128 (c_mem c) (s + zlen sb + zlen lb) e = Ok (zlen data, s + zlen sb + zlen lb + zlen n)).
      { apply (uleb_at _ _ e _ _ U); [rewrite <- app_assoc in A2; exact (at_app1 _ _ _ _ A2)|lia]. }
      assert (G2 : (u64 (e - (s + zlen sb + zlen lb + zlen n)) <? zlen data) = false) by (rewrite u64_small by lia; lia).
      split; [|split; [exact IF0|]].
      * exists (r_off f + zlen b), (r_cie f), s, e, k. split; [exact N|]. split; [exact KV|]. unfold mkfde. rewrite R1, R2, LE, K7, G, G2, E1. do 2 f_equal. lia.
      * intros h h' FC. unfold intern_fde. rewrite FC. cbn [obind]. rewrite R1, R2, LE, K7, G. cbn [obind]. rewrite G2, E1.
        replace (s + zlen sb + zlen lb + zlen n + zlen data) with (s + zlen sb + zlen lb + (zlen n + zlen data)) by lia.
        destruct (tsearch_fde h' _) as [g' h'']. reflexivity.
    + split; [|split; [exact IF0|]].
      * exists (r_off f + zlen b), (r_cie f), s, e, k. split; [exact N|]. split; [exact KV|]. unfold mkfde. rewrite R1, R2, LE, K7, K8, E1, AU. reflexivity.
      * intros h h' FC. unfold intern_fde. rewrite FC. cbn [obind]. rewrite R1, R2, LE, K7, K8, E1, <- AU. destruct (tsearch_fde h' _) as [g' h'']. reflexivity.
  - assert (LE : (u64 (r_len f + r_start f) <=? r_start f) = true) by lia.
    intros h h' FC. unfold intern_fde. rewrite FC. cbn [obind]. rewrite R1, R2, LE. reflexivity.
Qed.

(* ---- the invariant of the cache: rest are the entries not yet read by the scan ---- *)
Definition next_is (r : list (Z * aentry)) (n : Z) : Prop :=
  match r with (o, _) :: _ => n = o | [] => next_cfi c n = Ok NDone /\ forall x, ~ In (n, x) es end.
Definition inv (h : cache) (r : list (Z * aentry)) : Prop :=
  Forall (fun k => cie_val c (ic_off k) k) (h_cies h) /\
  Forall (fun g => exists f, In f frames /\ fde_val (r_off f) g /\ is_frame c f g /\ 0 < r_len f) (h_fdes h) /\
  exists d, es = d ++ r /\ next_is r (h_next h) /\
    forall f co b, In f frames -> In (r_off f, AFDE co b) d -> 0 < r_len f -> exists g, In g (h_fdes h) /\ is_frame c f g.

Lemma entries_next : forall d off o x r b, entries_bytes c off (d ++ (o, x) :: r) b -> at_ (c_mem c) off b ->
  exists b1 b2, entry_bytes c o x b1 /\ at_ (c_mem c) o b1 /\ entries_bytes c (o + zlen b1) r b2 /\ o + zlen b1 + zlen b2 = off + zlen b /\ off <= o.
Proof using.
  clear. induction d as [|[o' x'] d IH]; intros off o x r b H A; cbn [app] in H; inversion H as [|off0 x0 b0 l0 r0 E EB]; subst.
  - exists b0, r0. rewrite zlen_app. split; [exact E|]. split; [exact (at_app1 _ _ _ _ A)|]. split; [exact EB|]. lia.
  - destruct (IH _ _ _ _ _ EB (at_app2 _ _ _ _ A)) as (b1 & b2 & H1 & H2 & H3 & H4 & H5). exists b1, b2. rewrite zlen_app. pose proof (zlen_nonneg _ b0). sp; auto; lia.
Qed.
Lemma at_end : forall b, entries_bytes c 0 es b -> at_ (c_mem c) 0 b -> zlen b <= c_dsize c -> c_dsize c < two63 ->
  (zlen b = c_dsize c \/ at_ (c_mem c) (zlen b) [0; 0; 0; 0] /\ zlen b + 4 <= c_dsize c) -> next_is [] (zlen b).
Proof using.
  clear. intros b EB A L D T. pose proof (zlen_nonneg _ b). split.
  - unfold next_cfi. rewrite u64_small by lia.
    destruct T as [-> | [T1 T2]]; [replace ((c_dsize c =? two64 - 1) || (c_dsize c <=? c_dsize c + 4)) with true by lia; reflexivity|].
    destruct ((zlen b =? two64 - 1) || (c_dsize c <=? zlen b + 4)) eqn:E; [reflexivity|]. rewrite s64_small by lia.
    rewrite (rd_at (c_fle c) (c_mem c) (zlen b) 4 0); [reflexivity|lia|lia|]. destruct (c_fle c); exact T1.
  - intros x I. destruct (entries_in _ _ _ _ EB _ _ I A) as (b' & B1 & _ & _ & B4). pose proof (entry_bytes_pos _ _ _ _ B1). lia.
Qed.
Lemma es_next : forall d o x r, es = d ++ (o, x) :: r -> exists n y, next_cfi c o = Ok (NEntry n y) /\ describes c n x y /\ next_is r n /\ n <> o /\ 0 <= n < two63.
Proof using HH FR.
  intros d o x r E. destruct HH as (b & EB & A & L & D & T). pose proof (at_end b EB A L D T) as AE. 
  assert (EB' := EB). rewrite E in EB'. destruct (entries_next _ _ _ _ _ _ EB' A) as (b1 & b2 & H1 & H2 & H3 & H4 & H5).
  pose proof (zlen_nonneg _ b2). pose proof (entry_bytes_pos _ _ _ _ H1).
  destruct (next_cfi_at c o x b1 H1 H2 ltac:(lia) D) as (y & Y1 & Y2). exists (o + zlen b1), y. split; [exact Y1|]. split; [exact Y2|]. split; [|lia].
  destruct r as [|[o' x'] r].
  - inversion H3; subst. change (zlen (@nil Z)) with 0 in *. replace (o + zlen b1) with (zlen b) by lia. exact AE.
  - cbn. inversion H3; subst. reflexivity.
Qed.

Lemma find_cie_ok : forall h r co, inv h r -> (exists a, In (co, ACIE a) es) -> forall k, cie_val c co k ->
  exists h' r', find_cie c h co = Ok (Some k, h') /\ inv h' r' /\ (length r' <= length r)%nat /\ h_fdes h' = h_fdes h.
Proof using HH FR.
  intros h r co (I1 & I2 & d & D1 & D2 & D3) (a & IA) k KV. unfold find_cie, tfind_cie.
  destruct (find (fun k => ic_off k =? co) (h_cies h)) as [k'|] eqn:F.
  - apply find_some in F as [F1 F2]. apply Z.eqb_eq in F2. rewrite Forall_forall in I1. pose proof (I1 k' F1) as K'. rewrite F2 in K'.
    rewrite (cie_val_det _ _ _ _ K' KV). exists h, r. split; [reflexivity|]. split; [|split; [lia|reflexivity]].
    split; [rewrite Forall_forall; exact I1|]. split; [exact I2|]. exists d. auto.
  - pose proof KV as (nx & i & N & K). rewrite N. cbn [obind]. rewrite K. cbn [obind].
    assert (KO : ic_off k = co).
    { unfold new_cie in K. destruct (intern_aug c (Z.to_nat (i_end i - i_aug i)) (i_aug i) (i_adata i) false false 0 0 255) as [[[[[z1 z2] z3] z4] z5]| | |]; try discriminate.
      injection K as <-. reflexivity. }
    destruct (h_next h =? co) eqn:E.
    + destruct r as [|[o x] r]; cbn [next_is] in D2; [exfalso; destruct D2 as [_ D2]; replace (h_next h) with co in D2 by lia; exact (D2 _ IA)|].
      assert (o = co) as -> by lia. destruct (es_next _ _ _ _ D1) as (n & y & Y1 & Y2 & Y3 & _). rewrite N in Y1. injection Y1 as <- <-.
      destruct x as [a'|]; [|destruct Y2].
      exists (add_cie (Cache nx (h_cies h) (h_fdes h)) k), r. split; [reflexivity|]. split; [|split; [cbn; lia|reflexivity]].
      split; [constructor; [rewrite KO; exact KV|exact I1]|]. split; [exact I2|]. exists (d ++ [(co, ACIE a')]). split; [rewrite <- app_assoc; exact D1|].
      split; [exact Y3|]. intros f co' b IF IN LF. apply in_app_or in IN as [IN|[IN|[]]]; [|discriminate]. exact (D3 f co' b IF IN LF).
    + exists (add_cie h k), r. split; [reflexivity|]. split; [|split; [lia|reflexivity]].
      split; [constructor; [rewrite KO; exact KV|exact I1]|]. split; [exact I2|]. exists d. auto.
Qed.

Lemma is_frame_range : forall f g, is_frame c f g -> fd_start g = r_start f /\ fd_end g = r_start f + r_len f.
Proof using. clear. intros f g H. split; apply H. Qed.

(* adding the value of a frame *)
Lemma tsearch_ok : forall h r f g, inv h r -> In f frames -> 0 < r_len f -> fde_val (r_off f) g -> is_frame c f g ->
  exists h', tsearch_fde h g = (g, h') /\ inv h' r /\ In g (h_fdes h') /\ (forall x, In x (h_fdes h) -> In x (h_fdes h')) /\ h_next h' = h_next h /\
    forall x, In x (h_fdes h') -> x = g \/ In x (h_fdes h).
Proof using HH FR.
  intros h r f g (I1 & I2 & d & D1 & D2 & D3) IF LF FV IS. unfold tsearch_fde.
  destruct (is_frame_range _ _ IS) as [S1 S2].
  destruct (find _ (h_fdes h)) as [g'|] eqn:F.
  - apply find_some in F as [F1 F2]. rewrite Forall_forall in I2. destruct (I2 _ F1) as (f' & IF' & FV' & IS' & LF').
    destruct (is_frame_range _ _ IS') as [S1' S2'].
    destruct FR as (_ & _ & _ & DJ). 
    assert (f' = f) by (apply (DJ f' f (r_start f') IF' IF); unfold covers; lia). subst f'.
    rewrite (fde_val_det _ _ _ FV' FV) in *. exists h. split; [reflexivity|]. split; [|split; [exact F1|auto]].
    split; [exact I1|]. split; [rewrite Forall_forall; exact I2|]. exists d. auto.
  - exists (Cache (h_next h) (h_cies h) (g :: h_fdes h)). split; [reflexivity|]. split; [|split; [left; reflexivity|split; [intros x X; right; exact X|split; [reflexivity|intros x [X|X]; [left; congruence|right; exact X]]]]].
    split; [exact I1|]. split.
    + constructor; [exists f; auto|exact I2].
    + exists d. split; [exact D1|]. split; [exact D2|]. intros f0 co b IF0 IN L0. destruct (D3 f0 co b IF0 IN L0) as (x & X1 & X2). exists x. split; [right; exact X1|exact X2].
Qed.

Lemma inv_step_cie : forall h d o a r n, Forall (fun k => cie_val c (ic_off k) k) (h_cies h) ->
  Forall (fun g => exists f, In f frames /\ fde_val (r_off f) g /\ is_frame c f g /\ 0 < r_len f) (h_fdes h) ->
  es = d ++ (o, ACIE a) :: r -> (forall f co b, In f frames -> In (r_off f, AFDE co b) d -> 0 < r_len f -> exists g, In g (h_fdes h) /\ is_frame c f g) ->
  next_is r n -> inv (Cache n (h_cies h) (h_fdes h)) r.
Proof using.
  clear. intros h d o a r n I1 I2 D1 D3 NX. split; [exact I1|]. split; [exact I2|]. exists (d ++ [(o, ACIE a)]). split; [rewrite <- app_assoc; exact D1|]. split; [exact NX|].
  intros f co b IF IN LF. apply in_app_or in IN as [IN|[IN|[]]]; [|discriminate]. exact (D3 f co b IF IN LF).
Qed.

Lemma scan_ok : forall fuel h r a, inv h r -> (length r < fuel)%nat -> tfind_fde h a = None ->
  exists res h' r', scan c fuel h a = Ok (res, h') /\ inv h' r' /\ answers c frames a res.
Proof using HH FR.
  induction fuel as [|fuel IH]; intros h r a (I1 & I2 & d & D1 & D2 & D3) L T; [lia|]. cbn [scan].
  assert (NC : forall g, In g (h_fdes h) -> ~ (fd_start g <= a < fd_end g)).
  { intros g G C. unfold tfind_fde in T. pose proof (find_none _ _ T g G) as X. cbn in X. lia. }
  destruct r as [|[o x] r]; cbn [next_is] in D2.
  - destruct D2 as [D2 D4]. rewrite D2. cbn [obind]. exists (inr DWARF_E_NO_MATCH), (Cache (two64 - 1) (h_cies h) (h_fdes h)), [].
    split; [reflexivity|]. split.
    + split; [exact I1|]. split; [exact I2|]. exists d. split; [exact D1|]. split; [|exact D3]. split; [reflexivity|].
      intros x IX. destruct (entry_next _ _ IX) as (b & r & EB & A & O & L' & _). destruct HH as (? & _ & _ & _ & D & _). pose proof (entry_bytes_pos _ _ _ _ EB). cbn [h_next] in *. clear - O L' D H. lia.
    + split; [reflexivity|]. intros f IF CV. destruct FR as (_ & FM & _). destruct (FM f IF) as (contents & b & en & sized & fs & sg & sb & lb & ab & IE & _).
      rewrite app_nil_r in D1. rewrite D1 in IE. destruct (D3 f _ _ IF IE) as (g & G1 & G2); [unfold covers in CV; lia|].
      apply (NC g G1). destruct (is_frame_range _ _ G2) as [-> ->]. exact CV.
  - rewrite D2. destruct (es_next _ _ _ _ D1) as (n & y & Y1 & Y2 & Y3 & Y4 & Y5). rewrite Y1. cbn [obind].
    destruct x as [k|co contents].
    + destruct y as [i|]; [|destruct Y2].
      assert (IN : In (o, ACIE k) es) by (rewrite D1; apply in_or_app; right; left; reflexivity).
      assert (INV1 : inv (Cache n (h_cies h) (h_fdes h)) r) by (apply (inv_step_cie h d o k r n I1 I2 D1 D3 Y3)).
      destruct FR as (CM & FR'). destruct (CM _ _ IN) as (e & sz & fs & g & M). destruct (cie_in _ _ IN _ _ _ _ M) as (nx & i' & kk & N2 & NK & K1 & _).
      rewrite Y1 in N2. injection N2 as <- <-.
      assert (HC : exists h', intern_cie c (Cache n (h_cies h) (h_fdes h)) o i = Ok h' /\ inv h' r /\ h_fdes h' = h_fdes h).
      { unfold intern_cie. destruct (tfind_cie (Cache n (h_cies h) (h_fdes h)) o).
        - eexists. split; [reflexivity|]. split; [exact INV1|reflexivity].
        - rewrite NK. cbn [obind]. eexists. split; [reflexivity|]. split; [|reflexivity]. destruct INV1 as (J1 & J2 & J3).
          split; [constructor; [rewrite K1; exists n, i; auto|exact J1]|]. split; [exact J2|exact J3]. }
      destruct HC as (h' & -> & INV2 & HF). cbn [obind]. apply (IH h' r a INV2); [cbn in L; lia|]. unfold tfind_fde. rewrite HF. exact T.
    + destruct y as [|ptr s e]; [destruct Y2|]. destruct Y2 as (-> & _).
      assert (IN : In (o, AFDE co contents) es) by (rewrite D1; apply in_or_app; right; left; reflexivity).
      destruct FR as (CM & FM & FC & DJ). destruct (FC _ _ _ IN) as (f & IF & FO).
      destruct (frame_val f IF) as (n' & s' & e' & k & N' & KV & KI & REST). rewrite FO, Y1 in N'. injection N' as <- CO <- <-.
      (* the rest with the entry itself still counted *)
      assert (INVX : forall hc, Forall (fun k => cie_val c (ic_off k) k) (h_cies hc) -> h_fdes hc = h_fdes h -> h_next hc = n ->
        exists hd, hd = Cache n (h_cies hc) (h_fdes h)) by (intros; eexists; reflexivity). clear INVX.
      (* find_cie does not depend on what the invariant says about the entry just read: use the invariant for a
         cache that already has it *)
      destruct (0 <? r_len f) eqn:LZ.
      * destruct REST as (g & FV & IS & INT).
        assert (INVG : inv (Cache n (h_cies h) (g :: h_fdes h)) r).
        { split; [exact I1|]. split; [constructor; [exists f; split; [exact IF|split; [exact FV|split; [exact IS|lia]]]|exact I2]|].
          exists (d ++ [(o, AFDE co contents)]). split; [rewrite <- app_assoc; exact D1|]. split; [exact Y3|].
          intros f0 co0 b0 IF0 IN0 L0. apply in_app_or in IN0 as [IN0|[IN0|[]]].
          - destruct (D3 f0 co0 b0 IF0 IN0 L0) as (x & X1 & X2). exists x. split; [right; exact X1|exact X2].
          - injection IN0 as O1 _ _. exists g. split; [left; reflexivity|].
            destruct (frame_val f0 IF0) as (n0 & s0 & e0 & k0 & N0 & KV0 & KI0 & REST0). replace (0 <? r_len f0) with true in REST0 by lia.
            destruct REST0 as (g0 & FV0 & IS0 & _). rewrite <- O1, <- FO in FV0. rewrite (fde_val_det _ _ _ FV FV0). exact IS0. }
        destruct (find_cie_ok _ _ (r_cie f) INVG KI k KV) as (h1 & r1 & FC1 & INV1 & LR & HF1).
        assert (FC2 : find_cie c (Cache n (h_cies h) (h_fdes h)) (r_cie f) = Ok (Some k, Cache (h_next h1) (h_cies h1) (h_fdes h))).
        { clear - FC1 HF1. unfold find_cie, tfind_cie in *. cbn [h_cies h_fdes h_next] in *. destruct (find (fun k => ic_off k =? r_cie f) (h_cies h)).
          - injection FC1 as <- <-. reflexivity.
          - destruct (next_cfi c (r_cie f)) as [[|?|nx [i|]]| | |]; try discriminate. cbn [obind] in *. destruct (new_cie c (r_cie f) i) as [q| | |]; try discriminate. cbn [obind] in *.
            injection FC1 as <- <-. destruct (n =? r_cie f); reflexivity. }
        rewrite CO. rewrite (INT _ _ FC2). cbn [obind].
        (* inserting *)
        unfold tsearch_fde. cbn [h_fdes].
        destruct (is_frame_range _ _ IS) as [S1 S2].
        destruct (find _ (h_fdes h)) as [g'|] eqn:FG.
        -- apply find_some in FG as [F1 F2]. rewrite Forall_forall in I2. destruct (I2 _ F1) as (f' & IF' & FV' & IS' & LF').
           destruct (is_frame_range _ _ IS') as [S1' S2'].
           assert (f' = f) by (apply (DJ f' f (r_start f') IF' IF); unfold covers; lia). subst f'.
           assert (g' = g) by (rewrite FO in FV, FV'; exact (fde_val_det _ _ _ FV' FV)). subst g'.
           assert (~ (fd_start g <= a < fd_end g)) by (apply NC, F1). cbn [obind].
           replace ((fd_start g <=? a) && (a <? fd_end g)) with false by lia.
           apply (IH _ r1); [|cbn in L; lia|exact T].
           destruct INV1 as (J1 & J2 & d1 & J3 & J4 & J5). split; [exact J1|]. split; [rewrite Forall_forall; exact I2|].
           exists d1. split; [exact J3|]. split; [exact J4|]. intros f0 co0 b0 IF0 IN0 L0. destruct (J5 f0 co0 b0 IF0 IN0 L0) as (x & X1 & X2).
           rewrite HF1 in X1. cbn in X1. exists x. split; [|exact X2]. destruct X1 as [<-|X1]; [exact F1|exact X1].
        -- cbn [obind h_next h_cies]. destruct ((fd_start g <=? a) && (a <? fd_end g)) eqn:CV.
           ++ eexists (inl g), _, r1. split; [reflexivity|]. split.
              ** destruct INV1 as (J1 & J2 & J3). rewrite HF1 in *. split; [exact J1|]. split; [exact J2|]. exact J3.
              ** exists f. split; [exact IF|]. split; [unfold covers; lia|exact IS].
           ++ apply (IH _ r1).
              ** destruct INV1 as (J1 & J2 & J3). rewrite HF1 in *. split; [exact J1|]. split; [exact J2|]. exact J3.
              ** cbn in L. lia.
              ** unfold tfind_fde. cbn [h_fdes find]. replace (negb (a <? fd_start g) && negb (fd_end g <=? a)) with false by lia. exact T.
      * assert (INVS : inv (Cache n (h_cies h) (h_fdes h)) r).
        { split; [exact I1|]. split; [exact I2|]. exists (d ++ [(o, AFDE co contents)]). split; [rewrite <- app_assoc; exact D1|]. split; [exact Y3|].
          intros f0 co0 b0 IF0 IN0 L0. apply in_app_or in IN0 as [IN0|[IN0|[]]]; [exact (D3 f0 co0 b0 IF0 IN0 L0)|].
          injection IN0 as O1 _ _. exfalso.
          destruct (frame_val f0 IF0) as (n0 & s0 & e0 & k0 & N0 & KV0 & KI0 & REST0). replace (0 <? r_len f0) with true in REST0 by lia.
          destruct REST0 as (g0 & FV0 & IS0 & INT0). 
          rewrite <- O1, Y1 in N0. injection N0 as <- CO0 <- <-. assert (EQ : r_cie f0 = r_cie f) by congruence. rewrite EQ in KV0, INT0.
          (* an empty and a non-empty frame at the same offset *)
          assert (IX : inv h ((o, AFDE co contents) :: r)) by (split; [exact I1|]; split; [exact I2|]; exists d; cbn; auto).
          destruct (find_cie_ok _ _ (r_cie f) IX KI k KV) as (h1 & r1 & FC1 & _).
          specialize (REST _ _ FC1). rewrite (cie_val_det _ _ _ _ KV0 KV) in INT0. specialize (INT0 _ _ FC1). rewrite REST in INT0.
          destruct (tsearch_fde h1 g0); discriminate. }
        destruct (find_cie_ok _ _ (r_cie f) INVS KI k KV) as (h1 & r1 & FC1 & INV1 & LR & HF1).
        rewrite CO. rewrite (REST _ _ FC1). cbn [obind]. apply (IH h1 r1 a INV1); [cbn in L; lia|]. unfold tfind_fde. rewrite HF1. exact T.
Qed.

Lemma inv0 : inv cache0 es.
Proof using HH FR.
  clear FR. split; [constructor|]. split; [constructor|]. exists []. split; [reflexivity|]. split; [|intros f co b _ []].
  destruct HH as (b & EB & A & L & D & T). destruct es as [|[o x] r] eqn:E.
  - pose proof (at_end b) as AE. rewrite E in AE. inversion EB; subst b. exact (AE EB A L D T).
  - cbn. inversion EB; subst. reflexivity.
Qed.
Lemma es_length : Z.of_nat (length es) <= c_dsize c.
Proof using HH FR.
  destruct HH as (b & EB & _ & L & _). assert (G : forall off l b, entries_bytes c off l b -> Z.of_nat (length l) <= zlen b).
  { clear. intros off l b H. induction H as [off|off x b l r E EB IH]; [cbn; lia|]. pose proof (entry_bytes_pos _ _ _ _ E). rewrite zlen_app. cbn [length]. lia. }
  specialize (G _ _ _ EB). lia.
Qed.
Lemma inv_length : forall h r, inv h r -> (length r <= length es)%nat.
Proof using. clear. intros h r (_ & _ & d & D & _). rewrite D, app_length. lia. Qed.
Lemma tfind_answers : forall h r a g, inv h r -> tfind_fde h a = Some g -> answers c frames a (inl g).
Proof using.
  clear. intros h r a g (_ & I2 & _) F. unfold tfind_fde in F. apply find_some in F as [F1 F2]. rewrite Forall_forall in I2.
  destruct (I2 _ F1) as (f & IF & _ & IS & LF). exists f. split; [exact IF|]. split; [|exact IS]. destruct (is_frame_range _ _ IS) as [S1 S2]. unfold covers. lia.
Qed.
Lemma find_fde_ok : forall h r a, inv h r -> exists res h' r', find_fde c None h a = Ok (res, h') /\ inv h' r' /\ answers c frames a res.
Proof using HH FR.
  intros h r a I. unfold find_fde. destruct (tfind_fde h a) as [g|] eqn:T.
  - exists (inl g), h, r. split; [reflexivity|]. split; [exact I|]. exact (tfind_answers _ _ _ _ I T).
  - apply (scan_ok _ h r a I); [|exact T]. pose proof (inv_length _ _ I). pose proof es_length. lia.
Qed.
Lemma lookups_ok : forall l h r, inv h r -> exists rs h' r', lookups c None h l = Ok (rs, h') /\ inv h' r' /\ Forall2 (answers c frames) l rs.
Proof using HH FR.
  induction l as [|a l IH]; intros h r I; cbn [lookups].
  - exists [], h, r. split; [reflexivity|]. split; [exact I|constructor].
  - destruct (find_fde_ok h r a I) as (res & h1 & r1 & -> & I1 & A1). cbn [obind]. destruct (IH h1 r1 I1) as (rs & h2 & r2 & -> & I2 & A2). cbn [obind].
    exists (res :: rs), h2, r2. split; [reflexivity|]. split; [exact I2|]. constructor; assumption.
Qed.
End Find.
