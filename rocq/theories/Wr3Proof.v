(* Proofs about writing files: the mapped file. *)
From Verif Require Import Base WrModel WrSpec WrProof Wr2Proof LineProps.
From Coq Require Import Sorted Permutation ZifyBool.

Lemma mput_ok max f p b : 0 <= p -> p + zlen b <= max -> mput max f p b = Ok (put f p b).
Proof. intros A B. unfold mput. replace ((0 <=? p) && (p + zlen b <=? max)) with true by lia. reflexivity. Qed.
Lemma mset_ok byte max f p n : 0 <= p -> 0 <= n -> p + n <= max -> exists f', mset byte max f p n = Ok f' /\ forall q, f' q = if (p <=? q) && (q <? p + n) then byte else f q.
Proof.
  intros A B C. unfold mset. rewrite mput_ok; [|exact A|rewrite zlen_repeat; lia]. eexists. split; [reflexivity|]. intro q. unfold put. rewrite zlen_repeat, Z2Nat.id by exact B.
  destruct ((p <=? q) && (q <? p + n)) eqn:E; [|reflexivity]. rewrite znth_repeat by lia. reflexivity.
Qed.
Lemma fill_mmap_ok byte max f last start target shs she : 0 <= last < target -> target <= shs -> target <= max ->
  exists f', fill_mmap byte max f last start target shs she = Ok f' /\ forall q, f' q = if (last <=? q) && (q <? target) then byte else f q.
Proof.
  intros A B C. unfold fill_mmap. replace (last <? shs) with true by lia. cbv zeta. replace (Z.min (target - last) (shs - last)) with (target - last) by lia.
  destruct (mset_ok byte max f last (target - last) ltac:(lia) ltac:(lia) ltac:(lia)) as (f' & E & Q). rewrite E. cbn [obind]. replace (last + (target - last)) with target in * by lia. rewrite Z.eqb_refl. cbn. exists f'. split; [reflexivity|exact Q].
Qed.
Lemma index_nodup w : placed w -> NoDup (map v_index (f_scns w)).
Proof.
  intro P. apply NoDup_nth_error. intros i j I E. rewrite map_length in I. rewrite !nth_error_map in E. rewrite <- !nat_znth in E.
  assert (ZL : 0 <= Z.of_nat i < zlen (f_scns w)) by (unfold zlen; lia). destruct (znth_in _ _ _ ZL) as (s & S1). rewrite S1 in E. cbn in E. destruct (znth (f_scns w) (Z.of_nat j)) as [s2|] eqn:S2; [|discriminate]. cbn in E. injection E as E.
  apply (pl_index _ P) in S1. apply (pl_index _ P) in S2. lia.
Qed.

Section mmap.
  Variable byte : Z.
  Variable bo : bool.
  Variable cv : Z -> bytes -> bytes.
  Hypothesis cv_len : forall t b, zlen (cv t b) = zlen b.
  Variable w : wfile.
  Hypothesis P : placed w.
  Hypothesis TL : table_last w.
  Variable max : Z.
  Hypothesis FE : file_end w <= max.
  Variable f0 : store.
  Notation full := (f_dirty w && all_data w).
  Notation WW := (W byte (f_start w) full f0).
  Notation tend := (zlen (f_scns w) * f_shent w).
  Notation shs := (f_start w + f_shoff w).

  Lemma conv_len' t b : zlen (conv bo cv t b) = zlen b.
  Proof using cv_len. unfold conv. destruct bo; [apply cv_len|reflexivity]. Qed.
  Lemma gap_mstep f L last start target (c : bool) :
    WW f L last -> 0 <= last -> last <= target -> target <= shs -> target <= max -> (c = false -> full = false) ->
    exists f', (if (last <? target) && c then fill_mmap byte max f last start target shs (shs + tend) else Ok f) = Ok f' /\ WW f' L target.
  Proof using.
    clear. intros H L0 T TS TM C. destruct ((last <? target) && c) eqn:G.
    - destruct (fill_mmap_ok byte max f last start target shs (shs + tend) ltac:(lia) TS TM) as (f' & E & Q). exists f'. split; [exact E|].
      apply W_gap with (f := f) (hi := last); [exact H|lia|exact Q].
    - exists f. split; [reflexivity|]. apply W_skip with (hi := last); [exact H|exact T|]. destruct c; [right; lia|left; auto].
  Qed.
  Lemma mmap_blocks_ok s start : start = f_start w + v_off s -> 0 <= start -> start + v_size s <= shs -> start + v_size s <= max -> forall bs f last ch b L,
    WW f L last -> 0 <= last -> 0 <= b -> last <= start + b -> inside b bs (v_size s) ->
    exists f' last' ch', mmap_blocks byte bo cv max w s start shs (shs + tend) bs f last ch = Ok (f', last', ch') /\
      WW f' (L ++ map (fun x => piece_if (conv bo cv) (v_flag s || w_dirty x || f_dirty w) (start + w_off x) (w_type x) (w_buf x)) bs) last' /\
      last' <= start + v_size s /\ (bs <> [] -> start + b <= last' /\ exists p n o, In (p, n, o) (map (fun x => piece_if (conv bo cv) (v_flag s || w_dirty x || f_dirty w) (start + w_off x) (w_type x) (w_buf x)) bs) /\ p + n = last').
  Proof using cv_len.
    clear P TL FE. intros ST S0 SS SM. induction bs as [|x r IH]; intros f last ch b L H L0 B0 LB I.
    - cbn in *. eexists _, _, _. split; [reflexivity|]. cbn. rewrite app_nil_r. split; [exact H|]. split; [lia|]. intro N; contradiction N; reflexivity.
    - pose proof (inside_in _ _ _ x I (or_introl eq_refl)) as XI. cbn [inside] in I. destruct I as (I1 & I2). cbn [mmap_blocks]. cbv zeta. pose proof (zlen_nonneg _ (w_buf x)) as ZN.
      replace ((0 <=? w_off x) && (w_off x <=? v_size s) && (zlen (w_buf x) <=? v_size s - w_off x)) with true by lia. cbn [negb].
      set (d := v_flag s || w_dirty x || f_dirty w) in *.
      destruct (gap_mstep f L last start (start + w_off x) ((w_off x =? 0) || d) H L0 ltac:(lia) ltac:(lia) ltac:(lia)) as (f1 & E1 & H1).
      { intro C. destruct (f_dirty w) eqn:X; [|reflexivity]. unfold d in C. rewrite !orb_true_r in C. discriminate. }
      rewrite E1. cbn [obind].
      pose proof (W_piece byte bo cv cv_len w full f0 f1 L (start + w_off x) d (w_type x) (w_buf x) H1) as H2.
      assert (E2 : (if d then mput max f1 (start + w_off x) (conv bo cv (w_type x) (w_buf x)) else Ok f1) = Ok (if d then put f1 (start + w_off x) (conv bo cv (w_type x) (w_buf x)) else f1)).
      { destruct d; [|reflexivity]. apply mput_ok; [lia|]. rewrite conv_len'. lia. }
      rewrite E2. cbn [obind].
      destruct (IH (if d then put f1 (start + w_off x) (conv bo cv (w_type x) (w_buf x)) else f1) (start + w_off x + zlen (w_buf x)) (ch || d) (w_off x + zlen (w_buf x)) (L ++ [piece_if (conv bo cv) d (start + w_off x) (w_type x) (w_buf x)]) H2 ltac:(lia) ltac:(lia) ltac:(lia) I2)
        as (f' & last' & ch' & E3 & H3 & LL & N2).
      exists f', last', ch'. split; [exact E3|]. split; [rewrite <- app_assoc in H3; exact H3|]. split; [exact LL|]. intros _. destruct r as [|y r'].
      + cbn in E3. injection E3 as <- <- <-. split; [lia|]. exists (start + w_off x), (zlen (w_buf x)), (if d then Some (conv bo cv (w_type x) (w_buf x)) else None). split; [left; reflexivity|reflexivity].
      + destruct N2 as (N3 & p & n & o & N4 & N5); [discriminate|]. split; [lia|]. exists p, n, o. split; [right; exact N4|exact N5].
  Qed.
  Lemma mmap_scns_ok l : 0 <= f_start w -> Forall scn_wf l -> Forall (fun s => v_index s = 0 -> v_flag s = false) l -> Forall (fun s => stored s = true -> v_off s + v_size s <= f_shoff w) l -> shs <= max -> (forall s, In s l -> In s (f_scns w)) ->
    forall f last prev b L, WW f L last -> 0 <= last -> 0 <= b -> last <= f_start w + b -> chain b l ->
    exists f' last' prev', mmap_scns byte bo cv max w shs (shs + tend) l (f, last, prev) = Ok (f', last', prev') /\ WW f' (L ++ flat_map (scn_pieces (conv bo cv) w) l) last' /\ end_ok bo cv w l last last'.
  Proof using cv_len.
    clear P TL FE. intros S0. induction l as [|s r IH]; intros FW FZ FT SM SUB f last prev b L H L0 B0 LB CH.
    - cbn. eexists _, _, _. split; [reflexivity|]. rewrite app_nil_r. split; [exact H|]. left. split; [reflexivity|constructor].
    - inversion FW as [|? ? FW1 FW2]; subst. inversion FZ as [|? ? FZ1 FZ2]; subst. inversion FT as [|? ? FT1 FT2]; subst. specialize (IH FW2 FZ2 FT2 SM (fun x X => SUB x (or_intror X))).
      cbn [mmap_scns chain] in *. unfold mmap_scn. destruct (v_index s =? 0) eqn:Z0.
      { assert (ST : stored s = false) by (unfold stored; rewrite Z0; reflexivity). rewrite ST in CH. rewrite (FZ1 ltac:(lia)). cbn [obind]. destruct (IH f last prev b L H L0 B0 LB CH) as (f' & last' & prev' & E & H' & EN).
        exists f', last', prev'. split; [exact E|]. split; [cbn [flat_map]; unfold scn_pieces at 1; rewrite ST; exact H'|].
        destruct EN as [(E1 & E2) | (x & E1 & E2)]; [left; split; [exact E1|constructor; assumption]|right; exists x; split; [right; exact E1|exact E2]]. }
      destruct (v_type s =? SHT_NOBITS) eqn:NB.
      { assert (ST : stored s = false) by (unfold stored; unfold SHT_NOBITS in NB; rewrite NB, andb_false_r; reflexivity). rewrite ST in CH. cbn [obind]. destruct (IH f last prev b L H L0 B0 LB CH) as (f' & last' & prev' & E & H' & EN).
        exists f', last', prev'. split; [exact E|]. split; [cbn [flat_map]; unfold scn_pieces at 1; rewrite ST; exact H'|].
        destruct EN as [(E1 & E2) | (x & E1 & E2)]; [left; split; [exact E1|constructor; assumption]|right; exists x; split; [right; exact E1|exact E2]]. }
      assert (ST : stored s = true) by (unfold stored; unfold SHT_NOBITS in NB; rewrite Z0, NB; reflexivity). rewrite ST in CH. destruct CH as (C1 & C2). destruct (FW1 ST) as (SZ & DT). specialize (FT1 ST).
      assert (PS : scn_pieces (conv bo cv) w s = match v_data s with Some bs => map (fun b => piece_if (conv bo cv) (v_flag s || w_dirty b || f_dirty w) (f_start w + v_off s + w_off b) (w_type b) (w_buf b)) bs | None => [(f_start w + v_off s, v_size s, None)] end).
      { unfold scn_pieces. rewrite ST. reflexivity. }
      assert (STEP : exists f1 last1 prev1, (match v_data s with
        | Some bs => mmap_blocks byte bo cv max w s (f_start w + v_off s) shs (shs + tend) bs f last false
        | None => g <- (if (last <? f_start w + v_off s) && prev then fill_mmap byte max f last (f_start w + v_off s) (f_start w + v_off s) shs (shs + tend) else Ok f) ;; Ok (g, f_start w + v_off s + v_size s, false) end) = Ok (f1, last1, prev1) /\
        WW f1 (L ++ scn_pieces (conv bo cv) w s) last1 /\ f_start w + v_off s <= last1 <= f_start w + v_off s + v_size s /\ exists p n o, In (p, n, o) (scn_pieces (conv bo cv) w s) /\ p + n = last1).
      { rewrite PS. destruct (v_data s) as [bs|] eqn:DA.
        - destruct DT as (D1 & D2). destruct (mmap_blocks_ok s (f_start w + v_off s) eq_refl ltac:(lia) ltac:(lia) ltac:(lia) bs f last false 0 L H L0 ltac:(lia) ltac:(lia) D2) as (f1 & last1 & ch & E & H1 & LL & N1). exists f1, last1, ch. split; [exact E|].
          destruct (N1 D1) as (N2 & N3). split; [exact H1|]. split; [lia|exact N3].
        - destruct (gap_mstep f L last (f_start w + v_off s) (f_start w + v_off s) prev H L0 ltac:(lia) ltac:(lia) ltac:(lia)) as (f1 & E1 & H1).
          { intros _. destruct (all_data w) eqn:X; [|apply andb_false_r]. unfold all_data in X. rewrite forallb_forall in X. specialize (X s (SUB s (or_introl eq_refl))). cbv beta in X. rewrite ST, DA in X. discriminate. }
          rewrite E1. cbn [obind]. eexists _, _, _. split; [reflexivity|]. split; [apply W_keep; [exact SZ|exact H1]|]. split; [lia|]. exists (f_start w + v_off s), (v_size s), None. split; [left; reflexivity|reflexivity]. }
      destruct STEP as (f1 & last1 & prev1 & E1 & H1 & LL & NN). cbv zeta. rewrite E1. cbn [obind].
      destruct (IH f1 last1 prev1 (v_off s + v_size s) (L ++ scn_pieces (conv bo cv) w s) H1 ltac:(lia) ltac:(lia) ltac:(lia) C2) as (f' & last' & prev' & E & H' & EN).
      exists f', last', prev'. split; [exact E|]. split; [cbn [flat_map]; rewrite <- app_assoc in H'; exact H'|]. right.
      destruct EN as [(E2 & E3) | (x & E2 & E3)]; [exists s; split; [left; reflexivity|]; split; [exact ST|]; rewrite E2; split; [lia|exact NN]|exists x; split; [right; exact E2|exact E3]].
  Qed.
  Lemma mmap_shdrs_ok n l : 0 <= shs -> shs + n * f_shent w <= max -> Forall (fun s => 0 <= v_index s < n /\ zlen (v_img s) = f_shent w) l -> NoDup (map v_index l) -> forall f,
    exists f', mmap_shdrs bo cv max w shs l f = Ok f' /\
      (forall s, In s l -> let a := shs + v_index s * f_shent w in
         if v_sflag s || f_dirty w then forall i, 0 <= i < zlen (v_img s) -> Some (f' (a + i)) = znth (conv bo cv 9 (v_img s)) i else forall q, a <= q < a + f_shent w -> f' q = f q) /\
      (forall q, (forall s, In s l -> ~ (shs + v_index s * f_shent w <= q < shs + v_index s * f_shent w + f_shent w)) -> f' q = f q).
  Proof using cv_len.
    clear P TL FE. intros S0 SM. induction l as [|s r IH]; intros F ND f.
    - exists f. split; [reflexivity|]. split; [intros s []|reflexivity].
    - inversion F as [|? ? F1 F2]; subst. cbn [map] in ND. inversion ND as [|? ? N1 N2]; subst. cbn [mmap_shdrs]. destruct F1 as (F1 & F1').
      assert (FS : Forall (fun x => v_index x <> v_index s) r). { rewrite Forall_forall. intros x X E. apply N1. rewrite <- E. apply in_map. exact X. }
      assert (SEP : forall x q, In x r -> shs + v_index s * f_shent w <= q < shs + v_index s * f_shent w + f_shent w -> ~ (shs + v_index x * f_shent w <= q < shs + v_index x * f_shent w + f_shent w)).
      { intros x q X Q. pose proof (proj1 (Forall_forall _ _) FS x X) as NE. cbn beta in NE. clear - Q NE. intro H. assert (v_index x < v_index s \/ v_index s < v_index x) by lia. nia. }
      set (g := if v_sflag s || f_dirty w then put f (shs + v_index s * f_shent w) (conv bo cv 9 (v_img s)) else f).
      assert (E : (if v_sflag s || f_dirty w then mput max f (shs + v_index s * zlen (v_img s)) (conv bo cv T_SHDR (v_img s)) else Ok f) = Ok g).
      { unfold g. destruct (v_sflag s || f_dirty w); [|reflexivity]. rewrite F1'. pose proof (zlen_nonneg _ (v_img s)). apply mput_ok; [nia|]. rewrite conv_len'. nia. }
      rewrite E. cbn [obind]. destruct (IH F2 N2 g) as (f' & E' & A & B). exists f'. split; [exact E'|].
      assert (GO : forall q, ~ (shs + v_index s * f_shent w <= q < shs + v_index s * f_shent w + f_shent w) -> g q = f q).
      { intros q Q. unfold g. destruct (v_sflag s || f_dirty w); [|reflexivity]. apply put_out. rewrite conv_len', F1'. lia. }
      split.
      + intros x [<- | X].
        * cbv zeta. destruct (v_sflag s || f_dirty w) eqn:D.
          -- intros i Hi. rewrite B by (intros x X; apply SEP; [exact X|lia]). unfold g. apply put_in. rewrite conv_len'. exact Hi.
          -- intros q Q. rewrite B by (intros x X; apply SEP; [exact X|lia]). reflexivity.
        * specialize (A x X). cbv zeta in A |- *. destruct (v_sflag x || f_dirty w); [exact A|]. intros q Q. rewrite A by exact Q. apply GO. intro Q2. apply (SEP x q X Q2 Q).
      + intros q Q. rewrite B by (intros x X; apply Q; right; exact X). apply GO. apply Q. left. reflexivity.
  Qed.

  Theorem updatemmap_ok : exists f', updatemmap byte bo cv max w f0 = Ok f' /\ file_is byte full (f_start w) (file_end w) (pieces (conv bo cv) (fun s => v_sflag s || f_dirty w) w) f0 f'.
  Proof.
    pose proof (pl_start _ P) as S0. pose proof (pl_head _ P) as PH. pose proof (pl_phdr _ P) as PP. pose proof (zlen_nonneg _ (f_eimg w)) as EN0.
    assert (MAXP : forall x, In x (pieces (conv bo cv) (fun s => v_sflag s || f_dirty w) w) -> fst (fst x) + snd (fst x) <= max).
    { intros x X. etransitivity; [|exact FE]. unfold file_end. fold (ends (pieces (fun _ b => b) (fun _ => false) w)). rewrite (ends_pieces _ _ (conv bo cv) (fun s => v_sflag s || f_dirty w)). apply fold_max. unfold ends. apply (in_map (fun x => fst (fst x) + snd (fst x)) _ _ X). }
    assert (ME : f_start w + zlen (f_eimg w) <= max) by (apply (MAXP (piece_if (conv bo cv) (f_edirty w || f_dirty w) (f_start w) 3 (f_eimg w))); left; reflexivity).
    assert (MH : f_start w + head_end w <= max).
    { destruct (head_attained byte bo cv cv_len w P) as (p & n & o & I & E). rewrite <- E. apply (MAXP (p, n, o)). unfold pieces. apply in_or_app. left. exact I. }
    unfold updatemmap. cbv zeta.
    pose proof (W_piece byte bo cv cv_len w full f0 f0 [] (f_start w) (f_edirty w || f_dirty w) T_EHDR (f_eimg w) (W_nil byte (f_start w) full f0)) as H1. cbn [app] in H1. rewrite PH in H1.
    set (f1 := if f_edirty w || f_dirty w then put f0 (f_start w) (conv bo cv T_EHDR (f_eimg w)) else f0) in *.
    assert (E1 : (if f_edirty w || f_dirty w then mput max f0 (f_start w) (conv bo cv T_EHDR (f_eimg w)) else Ok f0) = Ok f1).
    { unfold f1. destruct (f_edirty w || f_dirty w); [|reflexivity]. apply mput_ok; [lia|]. rewrite conv_len'. lia. }
    rewrite E1. cbn [obind]. clearbody f1.
    assert (HD : exists f2 prev2, (match f_phdrs w with
      | Some ph => if f_pdirty w || f_dirty w then
          f <- (if f_ehsize w <? f_phoff w then mset byte max f1 (f_start w + f_ehsize w) (f_phoff w - f_ehsize w) else Ok f1) ;;
          f <- mput max f (f_start w + f_phoff w) (conv bo cv T_PHDR ph) ;; Ok (f, true)
        else Ok (f1, (f_edirty w || f_dirty w) && match f_phdrs w with None => true | Some _ => false end)
      | None => Ok (f1, (f_edirty w || f_dirty w) && match f_phdrs w with None => true | Some _ => false end) end) = Ok (f2, prev2) /\
      WW f2 (head_pieces (conv bo cv) w) (f_start w + head_end w)).
    { unfold head_pieces, head_end in *. destruct (f_phdrs w) as [ph|].
      - pose proof (zlen_nonneg _ ph) as ZP. destruct (f_pdirty w || f_dirty w) eqn:D.
        + assert (G : exists f2, (if f_ehsize w <? f_phoff w then mset byte max f1 (f_start w + f_ehsize w) (f_phoff w - f_ehsize w) else Ok f1) = Ok f2 /\
            WW f2 [piece_if (conv bo cv) (f_edirty w || f_dirty w) (f_start w) T_EHDR (f_eimg w)] (f_start w + f_phoff w)).
          { destruct (f_ehsize w <? f_phoff w) eqn:G.
            - destruct (mset_ok byte max f1 (f_start w + f_ehsize w) (f_phoff w - f_ehsize w) ltac:(lia) ltac:(lia) ltac:(lia)) as (f2 & E & Q). exists f2. split; [exact E|]. apply W_gap with (f := f1) (hi := f_start w + f_ehsize w); [exact H1|lia|].
              intro q. rewrite Q. replace (f_start w + f_ehsize w + (f_phoff w - f_ehsize w)) with (f_start w + f_phoff w) by lia. reflexivity.
            - exists f1. split; [reflexivity|]. replace (f_start w + f_phoff w) with (f_start w + f_ehsize w) by lia. exact H1. }
          destruct G as (f2 & E & H2). rewrite E. cbn [obind]. rewrite mput_ok; [|lia|rewrite conv_len'; lia]. cbn [obind]. eexists _, _. split; [reflexivity|].
          pose proof (W_piece byte bo cv cv_len w full f0 f2 _ (f_start w + f_phoff w) true T_PHDR ph H2) as H3. cbn [app] in H3. rewrite Z.add_assoc. exact H3.
        + eexists _, _. split; [reflexivity|]. assert (FF : full = false) by (apply orb_false_elim in D as (_ & D); rewrite D; reflexivity).
          pose proof (W_skip byte (f_start w) full f0 f1 _ _ (f_start w + f_phoff w) H1 ltac:(lia) (or_introl FF)) as H2.
          pose proof (W_piece byte bo cv cv_len w full f0 f1 _ (f_start w + f_phoff w) false T_PHDR ph H2) as H3. cbn [app] in H3. rewrite Z.add_assoc. exact H3.
      - eexists _, _. split; [reflexivity|]. exact H1. }
    destruct HD as (f2 & prev2 & E2 & H2). rewrite E2. cbn [obind].
    assert (LA : f_start w + Z.max (zlen (f_eimg w)) (f_phoff w) + match f_phdrs w with Some ph => zlen ph | None => 0 end = f_start w + head_end w) by (unfold head_end; destruct (f_phdrs w); lia). rewrite LA.
    destruct (f_scns w) as [|s0 r0] eqn:SC.
    { eexists. split; [reflexivity|]. eapply W_done; [exact H2|lia| |apply (head_attained byte bo cv cv_len w P)]. intro x. unfold pieces, table_pieces. rewrite SC. cbn. rewrite app_nil_r. reflexivity. }
    rewrite <- SC in *. assert (NE : f_scns w <> []) by (rewrite SC; discriminate).
    pose proof (tend_nonneg w P) as TN. destruct (pl_table _ P) as (T1 & T2). assert (HE0 : 0 <= head_end w) by (unfold head_end; destruct (f_phdrs w) as [ph|]; [pose proof (zlen_nonneg _ ph)|]; lia).
    assert (MT : shs + tend <= max).
    { assert (ZP : 0 <= zlen (f_scns w) - 1 < zlen (f_scns w)). { rewrite SC, zlen_cons. pose proof (zlen_nonneg _ r0). lia. }
      destruct (znth_in _ _ _ ZP) as (s & S1). pose proof (pl_index _ P _ _ S1) as IX. pose proof (proj1 (Forall_forall _ _) (pl_image _ P) s (znth_In _ _ _ _ S1)) as IM. cbn beta in IM.
      assert (X : In (piece_if (conv bo cv) (v_sflag s || f_dirty w) (shs + v_index s * f_shent w) 9 (v_img s)) (pieces (conv bo cv) (fun s => v_sflag s || f_dirty w) w)).
      { unfold pieces. apply in_or_app. right. apply in_or_app. right. unfold table_pieces. apply in_map_iff. exists s. split; [reflexivity|]. eapply znth_In; eauto. }
      apply MAXP in X. cbn in X. rewrite IX, IM in X. lia. }
    destruct (mmap_scns_ok (sort_scns (f_scns w)) S0 (scn_wf_all w P _ (sort_perm _)) (zero_all w P _ (sort_perm _)) (Permutation_Forall (sort_perm _) TL) ltac:(lia) (fun s I => Permutation_in s (Permutation_sym (sort_perm _)) I)
                f2 (f_start w + head_end w) prev2 (head_end w) (head_pieces (conv bo cv) w) H2 ltac:(lia) HE0 ltac:(lia) (placed_chain w P)) as (f3 & last3 & prev3 & E3 & H3 & EN).
    rewrite E3. cbn [obind]. pose proof (end_last bo cv cv_len w P _ TL EN) as EL.
    set (L := head_pieces (conv bo cv) w ++ flat_map (scn_pieces (conv bo cv) w) (sort_scns (f_scns w))) in *.
    assert (L3 : 0 <= last3). { destruct H3 as (_ & _ & G). lia. }
    assert (GP : exists f4, (if f_dirty w && (last3 <? shs) then mset byte max f3 last3 (shs - last3) else Ok f3) = Ok f4 /\ WW f4 L shs).
    { destruct (f_dirty w && (last3 <? shs)) eqn:G.
      - destruct (mset_ok byte max f3 last3 (shs - last3) ltac:(lia) ltac:(lia) ltac:(lia)) as (f4 & E & Q). exists f4. split; [exact E|]. apply W_gap with (f := f3) (hi := last3); [exact H3|lia|].
        intro q. rewrite Q. replace (last3 + (shs - last3)) with shs by lia. reflexivity.
      - exists f3. split; [reflexivity|]. apply W_skip with (hi := last3); [exact H3|lia|]. destruct (f_dirty w); [right; lia|left; reflexivity]. }
    destruct GP as (f4 & E4 & H4). rewrite E4. cbn [obind].
    destruct (mmap_shdrs_ok (zlen (f_scns w)) (sort_scns (f_scns w)) ltac:(lia) MT) with (f := f4) as (f5 & E5 & A5 & B5).
    { eapply Permutation_Forall; [apply sort_perm|]. rewrite Forall_forall. intros s I. destruct (In_znth _ _ I) as (k & ZN). rewrite (pl_index _ P _ _ ZN). split; [apply (znth_range _ _ _ _ ZN)|]. apply (proj1 (Forall_forall _ _) (pl_image _ P) s I). }
    { eapply Permutation_NoDup; [apply Permutation_map; apply sort_perm|apply index_nodup; exact P]. }
    exists f5. split; [exact E5|].
    assert (IXR : forall s, In s (f_scns w) -> 0 <= v_index s < zlen (f_scns w)). { intros s I. destruct (In_znth _ _ I) as (k & ZN). rewrite (pl_index _ P _ _ ZN). apply (znth_range _ _ _ _ ZN). }
    assert (SE0 : 0 <= f_shent w). { pose proof (pl_image _ P) as I. rewrite SC in I. inversion I as [|? ? I1 I2]; subst. pose proof (zlen_nonneg _ (v_img s0)). lia. }
    eapply (finish byte bo cv cv_len w P f0 f4 f5 L shs (fun s => v_sflag s || f_dirty w) (sort_scns (f_scns w)) (sort_perm _) NE eq_refl H4); [right; reflexivity|right; lia| |].
    - intros q Q. apply B5. intros s I. apply (Permutation_in _ (Permutation_sym (sort_perm _))) in I. specialize (IXR s I). clear - Q IXR SE0. intro H. nia.
    - intros s I. cbv zeta. pose proof (Permutation_in _ (sort_perm _) I) as I2. specialize (A5 s I2). cbv zeta in A5. destruct (v_sflag s || f_dirty w); [exact A5|]. intros q Q. rewrite A5 by exact Q. destruct H4 as ((_ & _ & C & _) & _). apply C. right. specialize (IXR s I). nia.
  Qed.
End mmap.
