(* Proofs about the program header table. *)
From Verif Require Import Base ElfErr PhdrModel PhdrSpec.

Record inv (c64 : bool) (f : file) (e : elf) : Prop := Inv {
  i_kind : t_kind e = true;
  i_class : t_class e = 0 \/ t_class e = cls c64;
  i_max : t_max e = 10;
  i_cnt : (t_cnt e = 0 /\ t_sh0 e = None /\ f_scn f = false) \/ (0 < t_cnt e <= 10 /\ t_sh0 e <> None /\ f_scn f = true);
  i_ehdr : (t_ehdr e = None /\ f_ehdr f = false /\ t_tab e = None /\ f_tab f = []) \/
           (exists h, t_ehdr e = Some h /\ f_ehdr f = true /\ t_class e = cls c64 /\ h_phoff h = 0 /\
             ((t_tab e = None /\ f_tab f = [] /\ h_phnum h = 0) \/
              (exists l, t_tab e = Some (Heap, l) /\ l = f_tab f /\ 0 < zlen (f_tab f) < 2 ^ 32 /\ h_phentsize h = phsize c64 /\
                ((zlen (f_tab f) < 65535 /\ h_phnum h = zlen (f_tab f)) \/ (65535 <= zlen (f_tab f) /\ h_phnum h = 65535 /\ t_sh0 e = Some (zlen (f_tab f))))))) }.

Lemma inv_fresh : forall c64, inv c64 (File false false []) fresh.
Proof. intros. constructor; cbn; auto. Qed.

Lemma phnum_ok : forall c64 f e, inv c64 f e -> f_ehdr f = true -> getphdrnum e = Ok (zlen (f_tab f)).
Proof.
  intros c64 f e [K C M N H] F. unfold getphdrnum. rewrite K. cbn [negb].
  destruct H as [(H1 & H2 & _)|(h & H1 & H2 & H3 & H4 & H)]; [congruence|]. rewrite H1.
  destruct H as [(T & F0 & _)|(l & T & L & B & S & P)]; rewrite T.
  - rewrite H4, F0. reflexivity.
  - unfold phnum_rdlock. change PN_XNUM with 65535. destruct P as [(P1 & P2)|(P1 & P2 & P3)]; rewrite P2.
    + rewrite (proj2 (Z.eqb_neq _ _)) by lia. reflexivity.
    + rewrite Z.eqb_refl, P3. destruct N as [(N1 & N2 & _)|(N1 & _)]; [congruence|]. rewrite (proj2 (Z.ltb_lt _ _)) by lia. reflexivity.
Qed.

Lemma zlen_zeros : forall c, 0 <= c -> zlen (zeros c) = c.
Proof. intros. unfold zeros, zlen. rewrite repeat_length. lia. Qed.

Lemma step_ok : forall c64 f e o, inv c64 f e -> (forall c m, o = NewPhdr c m -> 0 <= c < 2 ^ 64) ->
  fst (step c64 o e) = Ok (fst (author o f)) /\ inv c64 (snd (author o f)) (snd (step c64 o e)).
Proof.
  intros c64 f e o I HO. pose proof I as [K C M N H].
  assert (NC : negb (t_class e =? 0) && negb (t_class e =? cls c64) = false) by (destruct C as [-> | ->]; rewrite Z.eqb_refl; [reflexivity|apply andb_false_r]).
  assert (CC : t_class (if t_class e =? 0 then set_class e (cls c64) else e) = cls c64).
  { destruct C as [X|X]; rewrite X; [reflexivity|]. destruct c64; exact X. }
  destruct o as [| |c m|i v]; cbn [step author fst snd].
  - unfold newehdr. rewrite K, NC. cbn [negb].
    split; [reflexivity|]. cbn [snd].
    set (e1 := if t_class e =? 0 then set_class e (cls c64) else e) in *.
    assert (E1 : t_kind e1 = t_kind e /\ t_ehdr e1 = t_ehdr e /\ t_tab e1 = t_tab e /\ t_cnt e1 = t_cnt e /\ t_max e1 = t_max e /\ t_sh0 e1 = t_sh0 e).
    { unfold e1. destruct (t_class e =? 0); repeat split. }
    destruct E1 as (A1 & A2 & A3 & A4 & A5 & A6). clearbody e1.
    destruct H as [(H1 & H2 & H3 & H4)|(h & H1 & H2 & H3 & H4 & H5)].
    + rewrite A2, H1. constructor; cbn [t_kind t_class t_max t_cnt t_sh0 t_ehdr t_tab f_scn f_ehdr f_tab set_ehdr]; [congruence|right; exact CC|congruence|rewrite A4, A6; exact N|].
      * right. eexists. split; [reflexivity|]. split; [reflexivity|]. split; [exact CC|]. split; [reflexivity|]. left. rewrite A3. auto.
    + rewrite A2, H1. constructor; cbn [t_kind t_class t_max t_cnt t_sh0 t_ehdr t_tab f_scn f_ehdr f_tab set_ehdr]; [congruence|right; exact CC|congruence|rewrite A4, A6; exact N|].
      * right. exists h. rewrite A2, A3, A6. split; [exact H1|]. split; [reflexivity|]. split; [exact CC|]. split; [exact H4|]. exact H5.
  - unfold newscn. destruct (t_cnt e <? t_max e) eqn:L.
    + split; [reflexivity|]. cbn [snd]. destruct N as [(N1 & N2 & N3)|(N1 & N2 & N3)].
      * rewrite N1. cbn [Z.eqb]. constructor; cbn; auto.
        { right. split; [lia|]. split; [discriminate|reflexivity]. }
        { destruct H as [H|(h & H1 & H2 & H3 & H4 & H5)]; [left; exact H|right]. exists h. split; [exact H1|]. split; [exact H2|]. split; [exact H3|]. split; [exact H4|].
          destruct H5 as [H5|(l & T & Ln & B & S & P)]; [left; exact H5|right]. exists l. split; [exact T|]. split; [exact Ln|]. split; [exact B|]. split; [exact S|].
          destruct P as [P|(P1 & P2 & P3)]; [left; exact P|]. congruence. }
      * rewrite (proj2 (Z.eqb_neq _ _)) by lia. constructor; cbn; auto. right. split; [lia|]. auto.
    + split; [reflexivity|]. cbn [snd]. constructor; cbn; auto.
      destruct N as [(N1 & N2 & N3)|(N1 & N2 & N3)]; [apply Z.ltb_ge in L; lia|]. right. auto.
  - specialize (HO c m eq_refl). unfold newphdr. rewrite K, NC. cbn [negb].
    assert (U : (u32 c =? c) = (c <? 2 ^ 32)).
    { unfold u32. destruct (c <? 2 ^ 32) eqn:X; [apply Z.ltb_lt in X; rewrite Z.mod_small by lia; apply Z.eqb_refl|].
      apply Z.ltb_ge in X. apply Z.eqb_neq. pose proof (Z.mod_pos_bound c (2 ^ 32) ltac:(lia)). lia. }
    rewrite U. replace (2 ^ 32 <=? c) with (negb (c <? 2 ^ 32)) by (rewrite Z.leb_antisym; reflexivity).
    destruct (c <? 2 ^ 32) eqn:LT; cbn [negb]; [|rewrite orb_true_r; cbn [fst snd]; split; [reflexivity|exact I]].
    rewrite orb_false_r. apply Z.ltb_lt in LT.
    set (e1 := if t_class e =? 0 then set_class e (cls c64) else e) in *.
    assert (E1 : t_kind e1 = t_kind e /\ t_ehdr e1 = t_ehdr e /\ t_tab e1 = t_tab e /\ t_cnt e1 = t_cnt e /\ t_max e1 = t_max e /\ t_sh0 e1 = t_sh0 e).
    { unfold e1. destruct (t_class e =? 0); repeat split. }
    destruct E1 as (A1 & A2 & A3 & A4 & A5 & A6).
    assert (I1 : inv c64 f e1).
    { constructor; [congruence|right; exact CC|congruence|rewrite A4, A6; exact N|]. rewrite A2, A3, A6.
      destruct H as [H|(h & H1 & H2 & H3 & H4 & H5)]; [left; exact H|right]. exists h. split; [exact H1|]. split; [exact H2|]. split; [exact CC|]. split; [exact H4|]. exact H5. }
    clearbody e1. clear NC I K C M N H A1 A2 A3 A4 A5 A6 U. pose proof I1 as [K C M N H].
    destruct H as [(H1 & H2 & H3 & H4)|(h & H1 & H2 & H3 & H4 & H)]; rewrite H1, H2; cbn [negb].
    { cbn [fst snd]. split; [reflexivity|exact I1]. }
    destruct (c =? 0) eqn:C0.
    + unfold remove_table. destruct H as [(T & F0 & P0)|(l & T & Ln & B & S & P)]; rewrite T.
      * cbn [fst snd]. split; [reflexivity|]. constructor; cbn; auto. right. exists h. split; [exact H1|]. split; [reflexivity|]. split; [exact H3|]. split; [exact H4|]. left. auto.
      * destruct N as [(N1 & N2 & N3)|(N1 & N2 & N3)].
        { rewrite N1. cbn. split; [reflexivity|]. constructor; cbn; auto. right. eexists. split; [reflexivity|]. split; [reflexivity|]. split; [exact H3|]. split; [exact H4|]. left. auto. }
        { rewrite (proj2 (Z.ltb_lt _ _)) by lia. destruct (t_sh0 e1) as [i|] eqn:SH; [|congruence]. cbn. split; [reflexivity|]. constructor; cbn; auto.
          - right. split; [lia|]. split; [discriminate|exact N3].
          - right. eexists. split; [reflexivity|]. split; [reflexivity|]. split; [exact H3|]. split; [exact H4|]. left. auto. }
    + apply Z.eqb_neq in C0. change PN_XNUM with 65535 in *.
      assert (NEW : (t_tab e1 = None \/ exists l, t_tab e1 = Some (Heap, l)) ->
        let r := match new_table c64 (fun _ => m) e1 h c with
                 | (Ok (Some l), e') => (Ok (Table l), e') | (Ok None, e') => (Ok Done, e') | (Err _, e') => (Ok Refused, e') | (UB, e') => (UB, e') | (Fuel, e') => (Fuel, e') end in
        let a := if (65535 <=? c) && negb (f_scn f) then (Refused, f) else if negb m then (Refused, f) else (Table (zeros c), File true (f_scn f) (zeros c)) in
        fst r = Ok (fst a) /\ inv c64 (snd a) (snd r)).
      { intros TT. unfold new_table. replace ((two64 - 1) / phsize c64 <? c) with false.
        2: { symmetry. apply Z.ltb_ge. destruct c64; cbn [phsize]; [change ((two64 - 1) / 56) with 329406144173384850|change ((two64 - 1) / 32) with 576460752303423487]; lia. }
        rewrite M. change (10 =? 0) with false. rewrite andb_false_r. change PN_XNUM with 65535.
        assert (S0 : (match t_sh0 e1 with None => true | Some _ => false end) = negb (f_scn f)).
        { destruct N as [(_ & N2 & N3)|(_ & N2 & N3)]; rewrite N3; destruct (t_sh0 e1); cbn [negb]; congruence. }
        rewrite S0. destruct ((65535 <=? c) && negb (f_scn f)) eqn:BIG; [cbn [fst snd]; split; [reflexivity|exact I1]|].
        assert (TM : forall (X Y : outcome (option (list phdr)) * elf), match t_tab e1 with Some (Map _, _) => X | _ => Y end = Y) by (intros; destruct TT as [-> | (l & ->)]; reflexivity).
        rewrite TM. destruct m; cbn [negb]; [|cbn [fst snd]; split; [reflexivity|exact I1]].
        cbn [fst snd]. split; [reflexivity|].
        destruct (65535 <=? c) eqn:X.
        - apply Z.leb_le in X. cbn [andb] in BIG. apply negb_false_iff in BIG.
          destruct N as [(_ & _ & N3)|(N1 & N2 & N3)]; [congruence|].
          assert (CN : (t_cnt e1 =? 0) = false) by (apply Z.eqb_neq; lia).
          constructor; cbn; auto; rewrite ?CN.
          + right. split; [lia|]. split; [discriminate|exact BIG].
          + right. eexists. split; [reflexivity|]. split; [reflexivity|]. split; [exact H3|]. split; [exact H4|]. right.
            exists (zeros c). split; [reflexivity|]. cbn [f_tab]. rewrite zlen_zeros by lia. split; [reflexivity|]. split; [lia|]. split; [reflexivity|]. right. split; [lia|]. split; [reflexivity|].
            unfold u32. rewrite Z.mod_small by lia. reflexivity.
        - apply Z.leb_gt in X. constructor; cbn; auto.
          right. eexists. split; [reflexivity|]. split; [reflexivity|]. split; [exact H3|]. split; [exact H4|]. right.
          exists (zeros c). split; [reflexivity|]. cbn [f_tab]. rewrite zlen_zeros by lia. split; [reflexivity|]. split; [lia|]. split; [reflexivity|]. left. split; [lia|].
          cbn [h_phnum]. unfold u16. rewrite Z.mod_small by lia. reflexivity. }
      destruct H as [(T & F0 & P0)|(l & T & Ln & B & S & P)].
      * rewrite T. rewrite orb_true_r. replace (c =? zlen (f_tab f)) with false by (symmetry; apply Z.eqb_neq; rewrite F0, zlen_nil; lia). cbn [andb].
        apply NEW. left. exact T.
      * destruct ((c =? zlen (f_tab f)) && (c <? 65535)) eqn:SAME.
        { apply andb_true_iff in SAME. destruct SAME as [S1 S3].
          apply Z.eqb_eq in S1. apply Z.ltb_lt in S3. destruct P as [(P1 & P2)|(P1 & _)]; [|lia].
          rewrite T, P2. rewrite (proj2 (Z.eqb_eq _ _)) by auto. replace (c =? 65535) with false by (symmetry; apply Z.eqb_neq; lia). cbn [negb orb].
          unfold same_table. rewrite S, Z.eqb_refl, T. cbn [negb]. rewrite (proj2 (Z.ltb_ge _ _)) by (rewrite Ln; lia).
          assert (SK : skipn (Z.to_nat c) l = []) by (apply skipn_all2; rewrite Ln; unfold zlen in S1; lia).
          rewrite SK, app_nil_r. cbn [fst snd]. split; [reflexivity|]. constructor; cbn; auto.
          right. exists h. split; [exact H1|]. split; [reflexivity|]. split; [exact H3|]. split; [exact H4|]. right. exists (zeros c).
          split; [reflexivity|]. cbn [f_tab]. rewrite zlen_zeros by lia. split; [reflexivity|]. split; [lia|]. split; [exact S|]. left. split; [lia|congruence]. }
        { assert (Q : negb (h_phnum h =? c) || (c =? 65535) = true).
          { apply andb_false_iff in SAME. destruct (c =? 65535) eqn:X5; [apply orb_true_r|]. rewrite orb_false_r. apply negb_true_iff. apply Z.eqb_neq in X5. apply Z.eqb_neq. 
            destruct SAME as [SM|SM]; [apply Z.eqb_neq in SM|apply Z.ltb_ge in SM]; destruct P as [(P1 & P2)|(P1 & P2 & P3)]; lia. }
          rewrite Q. cbn [orb]. apply NEW. right. exists l. exact T. }
  - destruct H as [(H1 & H2 & H3 & H4)|(h & H1 & H2 & H3 & H4 & H)].
    { rewrite H3, H4, zlen_nil. replace ((0 <=? i) && (i <? 0)) with false by (symmetry; lia). cbn [fst snd]. split; [reflexivity|exact I]. }
    destruct H as [(T & F0 & P0)|(l & T & Ln & B & S & P)]; rewrite T.
    { rewrite F0, zlen_nil. replace ((0 <=? i) && (i <? 0)) with false by (symmetry; lia). cbn [fst snd]. split; [reflexivity|exact I]. }
    subst l. destruct ((0 <=? i) && (i <? zlen (f_tab f))) eqn:R; [|cbn [fst snd]; split; [reflexivity|exact I]].
    cbn [fst snd]. split; [reflexivity|]. assert (ZL : zlen (zset (f_tab f) i v) = zlen (f_tab f)) by apply zlen_zset.
    constructor; cbn [t_kind t_class t_max t_cnt t_sh0 t_ehdr t_tab f_scn f_ehdr f_tab set_tab]; auto.
    right. exists h. split; [exact H1|]. split; [exact H2|]. split; [exact H3|]. split; [exact H4|]. right. exists (zset (f_tab f) i v).
    rewrite ZL. split; [reflexivity|]. split; [reflexivity|]. split; [exact B|]. split; [exact S|exact P].
Qed.

Lemma run_ok : forall c64 ops f e, inv c64 f e -> Forall (fun o => forall c m, o = NewPhdr c m -> 0 <= c < 2 ^ 64) ops ->
  exists e', run c64 ops e = Ok (fst (authors ops f), e') /\ inv c64 (snd (authors ops f)) e'.
Proof.
  intros c64 ops. induction ops as [|o r IH]; intros f e I H; [exists e; auto|].
  inversion H as [|? ? H1 H2]; subst. destruct (step_ok c64 f e o I H1) as [E J]. cbn [run authors].
  destruct (step c64 o e) as [a e1]. cbn [fst snd] in *. subst a. destruct (author o f) as [a f1]. cbn [fst snd] in *.
  destruct (IH f1 e1 J H2) as (e2 & E2 & I2). rewrite E2. cbn [obind fst snd]. destruct (authors r f1) as [l f2]. cbn [fst snd] in *. exists e2. auto.
Qed.
