(* Proofs about the image rebuilt from memory. *)
From Coq Require Import Sorting.Sorted.
From Verif Require Import Base RemModel RemSpec.

Lemma zn_app : forall A (a b : list A) i, 0 <= i -> znth (a ++ b) i = if i <? zlen a then znth a i else znth b (i - zlen a).
Proof.
  intros A a b i Hi. unfold znth. rewrite zlen_app. pose proof (zlen_nonneg _ a). pose proof (zlen_nonneg _ b).
  destruct (Z.ltb_spec i (zlen a)) as [L | L].
  - replace (0 <=? i) with true by lia. replace (i <? zlen a + zlen b) with true by lia. replace (i <? zlen a) with true by lia. cbn [andb].
    apply nth_error_app1. unfold zlen in L. lia.
  - replace (0 <=? i) with true by lia. replace (0 <=? i - zlen a) with true by lia.
    replace (i <? zlen a + zlen b) with (i - zlen a <? zlen b) by lia. cbn [andb].
    destruct (i - zlen a <? zlen b); [|reflexivity]. rewrite nth_error_app2 by (unfold zlen in L; lia). f_equal. unfold zlen in *. lia.
Qed.
Lemma ne_firstn : forall A (l : list A) n i, (i < n)%nat -> nth_error (firstn n l) i = nth_error l i.
Proof. induction l as [|x l IH]; intros [|n] [|i] H; cbn; try reflexivity; try lia. apply IH. lia. Qed.
Lemma ne_skipn : forall A (l : list A) n i, nth_error (skipn n l) i = nth_error l (n + i)%nat.
Proof. induction l as [|x l IH]; intros [|n] i; cbn; try reflexivity. - destruct i; reflexivity. - apply IH. Qed.
Lemma zlen_firstn : forall A (l : list A) n, 0 <= n <= zlen l -> zlen (firstn (Z.to_nat n) l) = n.
Proof. intros A l n H. unfold zlen in *. rewrite firstn_length. lia. Qed.
Lemma zlen_skipn : forall A (l : list A) n, 0 <= n <= zlen l -> zlen (skipn (Z.to_nat n) l) = zlen l - n.
Proof. intros A l n H. unfold zlen in *. rewrite skipn_length. lia. Qed.

Lemma blit_len : forall buf st d, 0 <= st -> st + zlen d <= zlen buf -> zlen (blit buf st d) = zlen buf.
Proof.
  intros buf st d H1 H2. pose proof (zlen_nonneg _ d). unfold blit. rewrite !zlen_app.
  rewrite zlen_firstn by lia. rewrite zlen_skipn by lia. lia.
Qed.
Lemma blit_nth : forall buf st d i, 0 <= st -> st + zlen d <= zlen buf -> 0 <= i ->
  znth (blit buf st d) i = if (st <=? i) && (i <? st + zlen d) then znth d (i - st) else znth buf i.
Proof.
  intros buf st d i H1 H2 Hi. pose proof (zlen_nonneg _ d) as Hd. unfold blit.
  rewrite zn_app by lia. rewrite zlen_firstn by lia.
  destruct (Z.ltb_spec i st) as [A | A].
  - replace (st <=? i) with false by lia. cbn [andb]. unfold znth. rewrite zlen_firstn by lia.
    replace (0 <=? i) with true by lia. replace (i <? st) with true by lia. replace (i <? zlen buf) with true by lia. cbn [andb].
    apply ne_firstn. lia.
  - replace (st <=? i) with true by lia. cbn [andb]. rewrite zn_app by lia.
    replace (i - st <? zlen d) with (i <? st + zlen d) by lia. destruct (Z.ltb_spec i (st + zlen d)) as [B | B]; [reflexivity|].
    unfold znth. rewrite zlen_skipn by lia.
    replace (0 <=? i - st - zlen d) with true by lia. replace (0 <=? i) with true by lia.
    replace (i - st - zlen d <? zlen buf - (st + zlen d)) with (i <? zlen buf) by lia. cbn [andb].
    destruct (i <? zlen buf); [|reflexivity]. rewrite ne_skipn. f_equal. lia.
Qed.

Section rem.
Variables (page : Z).
Hypothesis Hp : 0 < page.
Hypothesis Hdiv : (page | 2 ^ 64).

Lemma down_ps : forall x, down page x = page_start page x.
Proof. intros x. unfold down, page_start. pose proof (Z.div_mod x page ltac:(lia)). lia. Qed.
Lemma ps_le : forall x, page_start page x <= x < page_start page x + page.
Proof. intros x. unfold page_start. pose proof (Z.div_mod x page ltac:(lia)). pose proof (Z.mod_pos_bound x page Hp). lia. Qed.
Lemma pe_ge : forall x, x <= page_end page x < x + page.
Proof. intros x. unfold page_end. pose proof (Z.div_mod (x + page - 1) page ltac:(lia)). pose proof (Z.mod_pos_bound (x + page - 1) page Hp). lia. Qed.
Lemma pe_mono : forall x y, x <= y -> page_end page x <= page_end page y.
Proof. intros x y H. unfold page_end. apply Z.mul_le_mono_nonneg_l; [lia|]. apply Z.div_le_mono; lia. Qed.
Lemma up_pe : forall x, 0 <= x -> x + page <= 2 ^ 64 -> up page x = page_end page x.
Proof. intros x H1 H2. unfold up. rewrite down_ps. unfold page_start, page_end, u64. rewrite Z.mod_small by (change two64 with (2 ^ 64); lia). reflexivity. Qed.
Lemma ps_nonneg : forall x, 0 <= x -> 0 <= page_start page x.
Proof. intros x H. unfold page_start. pose proof (Z.div_pos x page H Hp). nia. Qed.
Lemma ps_0 : forall x, 0 <= x -> (page_start page x =? 0) = (x <? page).
Proof.
  intros x H. destruct (Z.ltb_spec x page) as [L | L]; unfold page_start.
  - rewrite Z.div_small by lia. lia.
  - pose proof (Z.div_le_lower_bound x page 1 Hp ltac:(lia)). nia.
Qed.
Lemma mod64 : forall x, (x mod 2 ^ 64) mod page = x mod page.
Proof. intros x. destruct Hdiv as [q Hq]. pose proof (Z.div_mod x (2 ^ 64) ltac:(lia)) as E.
  set (k := x / 2 ^ 64) in *. replace (x mod 2 ^ 64) with (x + (- k * q) * page) by (rewrite Hq in *; nia). apply Z_mod_plus_full. Qed.

Lemma good_scan : forall g, good_seg page g -> (u64 (s_vaddr g - s_off g)) mod page = 0.
Proof. intros g (_ & _ & _ & _ & H). unfold u64. change two64 with (2 ^ 64). rewrite mod64. exact H. Qed.

Lemma scan_ok : forall vma segs c,
  Forall (good_seg page) segs ->
  exists c', scan_all page vma segs c = Some c' /\
    c_base c' = (if c_found c then c_base c else match find (fun g => s_off g <? page) segs with Some g => u64 (vma - page_start page (s_vaddr g)) | None => c_base c end) /\
    c_end c' = match rev segs with g :: _ => seg_end g | [] => c_end c end /\
    c_end_mem c' = match rev segs with g :: _ => s_off g + s_memsz g | [] => c_end_mem c end /\
    c_size c' = fold_left (fun m g => Z.max m (page_end page (seg_end g))) segs (c_size c).
Proof.
  intros vma segs. induction segs as [|g r IH]; intros c H; cbn [scan_all].
  - exists c. cbn. split; [reflexivity|]. destruct (c_found c); repeat split; reflexivity.
  - inversion H as [|? ? G R]; subst. unfold scan_seg. rewrite (good_scan g G). cbn [negb Z.eqb].
    destruct G as (G1 & G2 & G3 & G4 & G5).
    destruct (IH (Rscan (if c_size c <? up page (s_off g + s_filesz g) then up page (s_off g + s_filesz g) else c_size c)
       (u64 (s_off g + s_filesz g)) (u64 (s_off g + s_memsz g))
       (if negb (c_found c) && (down page (s_off g) =? 0) then u64 (vma - down page (s_vaddr g)) else c_base c)
       (c_found c || negb (c_found c) && (down page (s_off g) =? 0))) R) as (c' & E & B & X & Y & S0).
    exists c'. split; [exact E|]. cbn [c_base c_end c_end_mem c_size c_found] in *. rewrite !down_ps, ps_0 in B by lia.
    split; [|split; [|split]].
    + rewrite B. cbn [find]. destruct (c_found c); cbn; [reflexivity|]. destruct (s_off g <? page); reflexivity.
    + rewrite X. cbn [rev]. destruct (rev r); cbn; [|reflexivity]. unfold u64, seg_end. apply Z.mod_small. change two64 with (2 ^ 64). lia.
    + rewrite Y. cbn [rev]. destruct (rev r); cbn; [|reflexivity]. unfold u64. apply Z.mod_small. change two64 with (2 ^ 64). lia.
    + rewrite S0. cbn [fold_left]. f_equal. rewrite up_pe by lia. unfold seg_end.
      destruct (Z.ltb_spec (c_size c) (page_end page (s_off g + s_filesz g))); lia.
Qed.

Lemma fold_max : forall segs m, ascending segs ->
  fold_left (fun m g => Z.max m (page_end page (seg_end g))) segs m = match rev segs with g :: _ => Z.max m (page_end page (seg_end g)) | [] => m end.
Proof.
  intros segs. induction segs as [|g r IH]; intros m H; [reflexivity|]. inversion H as [|? ? R F]; subst. cbn [fold_left]. rewrite IH by exact R.
  cbn [rev]. destruct (rev r) as [|z w] eqn:E; cbn [app]; [reflexivity|].
  assert (I : In z r) by (apply in_rev; rewrite E; left; reflexivity).
  rewrite Forall_forall in F. pose proof (pe_mono _ _ (F z I)). lia.
Qed.

Lemma end_max : forall segs g, ascending segs -> In g segs -> seg_end g <= the_end segs.
Proof.
  intros segs. induction segs as [|a r IH]; intros g H I; [destruct I|]. inversion H as [|? ? R F]; subst. unfold the_end in *. cbn [rev].
  destruct I as [-> | I].
  - destruct (rev r) as [|z w] eqn:E; cbn [app]; [lia|]. rewrite Forall_forall in F. apply F. apply in_rev. rewrite E. left. reflexivity.
  - specialize (IH g R I). destruct (rev r) as [|z w] eqn:E; cbn [app]; [|exact IH].
    assert (X : In g (rev r)) by (apply -> in_rev; exact I). rewrite E in X. destruct X.
Qed.

Lemma size_ok : forall segs c she,
  Forall (good_seg page) segs -> ascending segs -> 0 <= she ->
  c_end c = the_end segs ->
  c_end_mem c = match rev segs with g :: _ => s_off g + s_memsz g | [] => 0 end ->
  c_size c = match rev segs with g :: _ => Z.max 0 (page_end page (seg_end g)) | [] => 0 end ->
  image_size c she = the_size page segs she /\ the_end segs <= the_size page segs she /\
  (segs <> [] -> 0 < the_end segs) /\ the_size page segs she <= Z.max 0 (page_end page (the_end segs)).
Proof.
  intros segs c she G A Hs E M S0. unfold image_size, the_size, the_end in *.
  assert (N : segs <> [] -> rev segs <> []) by (intros X Y; apply X; rewrite <- (rev_involutive segs), Y; reflexivity).
  destruct (rev segs) as [|g w] eqn:R.
  - rewrite E, M, S0. cbn. repeat split; try lia. intros X. destruct (N X eq_refl).
  - assert (I : In g segs) by (apply in_rev; rewrite R; left; reflexivity).
    rewrite Forall_forall in G. destruct (G g I) as (G1 & G2 & G3 & G4 & G5). pose proof (pe_ge (seg_end g)) as P.
    assert (Q : 0 < seg_end g) by (unfold seg_end; lia).
    rewrite E, M, S0. rewrite Z.max_r by lia.
    replace (seg_end g =? s_off g + s_memsz g) with (s_filesz g =? s_memsz g) by (unfold seg_end; lia).
    destruct (s_filesz g =? s_memsz g); cbn [andb]; [|rewrite Bool.andb_false_r; repeat split; lia].
    rewrite Bool.andb_true_r.
    destruct (Z.leb_spec she (page_end page (seg_end g))) as [L | L]; [|rewrite Bool.andb_false_r; repeat split; lia].
    rewrite Bool.andb_true_r.
    destruct (Z.ltb_spec (seg_end g) (page_end page (seg_end g))) as [L2 | L2]; destruct (Z.ltb_spec (seg_end g) she); repeat split; lia.
Qed.

(* what a segment leaves in the buffer *)
Definition inv (f : bytes) (size : Z) (done : list rseg) (buf : bytes) : Prop :=
  zlen buf = size /\
  (forall g i, In g done -> page_start page (s_off g) <= i < seg_end g -> znth buf i = znth f i) /\
  (forall i, 0 <= i < size -> ~ covered page done i -> znth buf i = Some 0).

Lemma last_page : forall w, 0 <= w < 2 ^ 64 -> w mod page = 0 -> w + page <= 2 ^ 64.
Proof.
  intros w H W. destruct Hdiv as [q Hq]. pose proof (Z.div_mod w page ltac:(lia)) as D. rewrite W in D. rewrite Hq in *.
  assert (w / page < q) by nia. nia.
Qed.
Lemma seg_addr : forall base g, base mod page = 0 -> 0 <= s_vaddr g ->
  down page (u64 (base + s_vaddr g)) = (base + page_start page (s_vaddr g)) mod 2 ^ 64.
Proof.
  intros base g Hb Hv. unfold down, u64, page_start. change two64 with (2 ^ 64). rewrite mod64.
  set (v := s_vaddr g) in *. replace ((base + v) mod page) with (v mod page) by (rewrite (Z.add_mod base v page), Hb, Z.add_0_l, Z.mod_mod by lia; reflexivity).
  pose proof (Z.div_mod v page ltac:(lia)) as E. pose proof (Z.mod_pos_bound v page Hp) as B.
  pose proof (Z.mod_pos_bound (base + page * (v / page)) (2 ^ 64) ltac:(lia)) as C.
  set (w := (base + page * (v / page)) mod 2 ^ 64) in *.
  assert (W : (base + v) mod 2 ^ 64 = w + v mod page).
  { assert (W1 : w mod page = 0).
    { unfold w. rewrite mod64. rewrite Z.mul_comm, Z_mod_plus_full. exact Hb. }
    assert (W2 : w + page <= 2 ^ 64).
    { apply last_page; assumption. }
    replace (base + v) with (base + page * (v / page) + v mod page) by lia.
    rewrite Z.add_mod by lia. fold w. rewrite Z.add_mod_idemp_r by lia. apply Z.mod_small. lia. }
  rewrite W. lia.
Qed.

Lemma read_all_ok : forall read f base size segs done buf,
  base mod page = 0 -> Forall (good_seg page) segs -> Forall (mapped page read f base) segs ->
  (forall g, In g segs -> seg_end g <= size) ->
  ascending segs -> (forall g h, In g done -> In h segs -> seg_end g <= seg_end h) ->
  (forall g, In g done -> 0 <= s_off g) ->
  inv f size done buf ->
  exists buf', read_all page read size base segs buf = Rok buf' /\ inv f size (done ++ segs) buf'.
Proof.
  intros read f base size segs. induction segs as [|g r IH]; intros done buf Hb G M Sz A D O I.
  - exists buf. rewrite app_nil_r. split; [reflexivity | exact I].
  - inversion G as [|? ? G0 Gr]; subst. inversion M as [|? ? M0 Mr]; subst. inversion A as [|? ? Ar F]; subst.
    destruct I as (I1 & I2 & I3). cbn [read_all].
    pose proof G0 as (G1 & G2 & G3 & G4 & G5).
    pose proof (Sz g (or_introl eq_refl)) as Sg. pose proof (ps_le (s_off g)) as P1. pose proof (pe_ge (seg_end g)) as P2. pose proof (ps_nonneg (s_off g) G1) as P3.
    assert (Q : page_start page (s_off g) < seg_end g) by (unfold seg_end; lia).
    unfold read_seg. rewrite down_ps. fold (seg_end g). rewrite up_pe by (unfold seg_end; lia). rewrite seg_addr by (try exact Hb; lia).
    set (st := page_start page (s_off g)) in *.
    set (e := if size <? page_end page (seg_end g) then size else page_end page (seg_end g)).
    assert (Ee : seg_end g <= e <= size /\ e <= page_end page (seg_end g)) by (unfold e; destruct (Z.ltb_spec size (page_end page (seg_end g))); lia).
    replace (e <? st) with false by lia. replace (e =? st) with false by lia.
    destruct (M0 (e - st) ltac:(fold st; lia)) as (d & R & L & K). rewrite R, L, Z.eqb_refl. cbn [negb rbind].
    fold st in K.
    destruct (IH (done ++ [g]) (blit buf st d) Hb Gr Mr (fun h Hh => Sz h (or_intror Hh)) Ar) as (b' & E' & I').
    + intros a h Ha Hh. apply in_app_iff in Ha. destruct Ha as [Ha | [-> | []]]; [exact (D a h Ha (or_intror Hh))|]. rewrite Forall_forall in F. exact (F h Hh).
    + intros a Ha. apply in_app_iff in Ha. destruct Ha as [Ha | [-> | []]]; [exact (O a Ha) | exact G1].
    + split; [|split].
      * rewrite blit_len; lia.
      * intros a i Ha Hi. assert (Hi0 : 0 <= i).
        { apply in_app_iff in Ha. destruct Ha as [Ha | [-> | []]]; [pose proof (ps_nonneg (s_off a) (O a Ha)); lia | fold st in Hi; lia]. }
        rewrite blit_nth by lia. rewrite L.
        destruct ((st <=? i) && (i <? st + (e - st))) eqn:C.
        -- assert (W : seg_end a <= seg_end g).
           { apply in_app_iff in Ha. destruct Ha as [Ha | [-> | []]]; [exact (D a g Ha (or_introl eq_refl)) | lia]. }
           rewrite (K (i - st)) by lia. f_equal. lia.
        -- apply in_app_iff in Ha. destruct Ha as [Ha | [-> | []]]; [exact (I2 a i Ha Hi)|]. fold st in Hi. exfalso. lia.
      * intros i Hi Hc. rewrite blit_nth by lia. rewrite L.
        destruct ((st <=? i) && (i <? st + (e - st))) eqn:C.
        -- exfalso. apply Hc. exists g. split; [apply in_app_iff; right; left; reflexivity|]. fold st. lia.
        -- apply I3; [exact Hi|]. intros (a & Ha & Hr). apply Hc. exists a. split; [apply in_app_iff; left; exact Ha | exact Hr].
    + exists b'. split; [exact E'|]. rewrite <- app_assoc in I'. exact I'.
Qed.

(* reading never overruns when the segments end in order, whatever memory holds *)
Lemma read_all_safe : forall read base size segs buf,
  (forall a n d, read a n n = Some d -> zlen d = n) ->
  Forall (good_seg page) segs -> (forall g, In g segs -> seg_end g <= size) -> zlen buf = size ->
  match read_all page read size base segs buf with
  | Rub => False
  | Rok b => zlen b = size /\ forall g, In g segs ->
      exists n d, seg_end g - page_start page (s_off g) <= n /\ read (down page (u64 (base + s_vaddr g))) n n = Some d /\ zlen d = n
  | Rerr e => e = TRUNCATED
  end.
Proof.
  intros read base size segs. induction segs as [|g r IH]; intros buf Rd G Sz L; cbn [read_all].
  - split; [exact L | intros g []].
  - inversion G as [|? ? G0 Gr]; subst. pose proof G0 as (G1 & G2 & G3 & G4 & G5).
    pose proof (Sz g (or_introl eq_refl)) as Sg. pose proof (ps_le (s_off g)) as P1. pose proof (pe_ge (seg_end g)) as P2. pose proof (ps_nonneg (s_off g) G1) as P3.
    assert (Q : page_start page (s_off g) < seg_end g) by (unfold seg_end; lia).
    unfold read_seg. rewrite (down_ps (s_off g)). fold (seg_end g). rewrite up_pe by (unfold seg_end; lia).
    set (st := page_start page (s_off g)) in *.
    set (e := if zlen buf <? page_end page (seg_end g) then zlen buf else page_end page (seg_end g)).
    assert (Ee : seg_end g <= e <= zlen buf) by (unfold e; destruct (Z.ltb_spec (zlen buf) (page_end page (seg_end g))); lia).
    replace (e <? st) with false by lia. replace (e =? st) with false by lia.
    destruct (read (down page (u64 (base + s_vaddr g))) (e - st) (e - st)) as [d|] eqn:R; [|reflexivity].
    pose proof (Rd _ _ _ R) as Ld. rewrite Ld, Z.eqb_refl. cbn [negb rbind].
    assert (Lb : zlen (blit buf st d) = zlen buf) by (apply blit_len; lia).
    specialize (IH (blit buf st d) Rd Gr (fun h Hh => Sz h (or_intror Hh)) Lb). destruct (read_all page read (zlen buf) base r (blit buf st d)) as [b | er |]; [|exact IH|exact IH].
    destruct IH as (X & Y). split; [exact X|]. intros a [<- | Ha]; [|exact (Y a Ha)]. exists (e - st), d. fold st. split; [lia|]. split; [exact R | exact Ld].
Qed.
End rem.

Lemma zn_repeat : forall n i, 0 <= i < Z.of_nat n -> znth (repeat 0 n) i = Some 0.
Proof.
  intros n i H. unfold znth, zlen. rewrite repeat_length. replace (0 <=? i) with true by lia. replace (i <? Z.of_nat n) with true by lia. cbn [andb].
  apply nth_error_repeat. lia.
Qed.

Lemma headers_ok : forall read dec decp vma b h segs, headers read dec decp vma b h segs ->
  get_ehdr read dec vma = Rok (b, h) /\ get_phdrs read decp vma b h = Rok segs.
Proof.
  intros read dec decp vma b h segs (H1 & H2 & H3 & H4 & H5 & H6 & H7 & d & Hd & H8). split.
  - unfold get_ehdr. rewrite H1, H2. unfold ehsize, phsize. rewrite H4. destruct (h_class h =? 1).
    + replace (zlen b <? 52) with false by lia. replace (h_phnum h =? 0) with false by lia. reflexivity.
    + replace (zlen b <? 64) with false by lia. replace (h_phnum h =? 0) with false by lia. reflexivity.
  - unfold get_phdrs. assert (Hn : 0 <= h_phnum h * h_phentsize h) by (rewrite H4; destruct (h_class h =? 1); lia).
    unfold u64. change two64 with (2 ^ 64). rewrite (Z.mod_small (h_phoff h + _)) by lia.
    destruct H8 as [(L & E) | (L & E)].
    + replace (h_phoff h + h_phnum h * h_phentsize h <=? zlen b) with true by lia.
      replace (256 <? h_phoff h + h_phnum h * h_phentsize h) with false by lia. subst. reflexivity.
    + replace (h_phoff h + h_phnum h * h_phentsize h <=? zlen b) with false by lia. rewrite E. subst. reflexivity.
Qed.
