(* C27: the layout computed by elf_update; C28: layouts made by the user. *)
From Verif Require Import Base ElfErr LayModel LaySpec LayProof.
From Coq Require Import ZifyBool.

Lemma F2_len {A B} (P : A -> B -> Prop) l l' : Forall2 P l l' -> length l = length l'.
Proof. induction 1; cbn; congruence. Qed.

(* C27: sizes below 4 GiB: headers, sections and the section header table follow one another, each at the first multiple of its alignment behind the
   previous one; so do the buffers within their section, whose alignment suits all of them; and nothing else changes. *)
Theorem C27_layout_partial : forall l l' size, l_layout l = false -> file_ok l -> need l < two32 ->
  updatenull l = Ok (l', size) ->
  packed 0 (regions l') size /\
  Forall (fun s => pow2 (s_align s) /\ Forall (fun d => pow2 (d_align d) /\ s_align s mod d_align d = 0) (blocks s) /\
     match s_data s with Some _ => packed 0 (data_regions s) (s_size s) | None => s_size s = s_raw s end) (sections l') /\
  Forall2 (fun s s' => same_scn s s' /\ s_align s' = need_align s) (sections l) (sections l') /\
  l_64 l' = l_64 l /\ l_phnum l' = l_phnum l /\ (l_scns l = None <-> l_scns l' = None).
Proof.
  intros l l' size LL (F & PN) B E. unfold updatenull in E. rewrite LL in E. cbv zeta in E. unfold need, ehdr_size, phdr_size, shdr_size, shdr_align in *.
  fold (ssum (sections l)) in B. pose proof (ssum_nonneg _ F) as SN. pose proof (zlen_nonneg _ (sections l)) as ZN.
  set (eh := if l_64 l then 64 else 52) in *. assert (EH : eh = 64 \/ eh = 52) by (subst eh; destruct (l_64 l); auto).
  set (ph := match l_phnum l with Some n => (if l_64 l then 56 else 32) * n | None => 0 end) in *.
  assert (PH : 0 <= ph) by (subst ph; destruct (l_phnum l); [destruct (l_64 l); lia|lia]).
  set (x := match l_phnum l with None => _ | Some _ => _ end) in E.
  assert (X : x = Ok (match l_phnum l with Some _ => eh | None => l_phoff l end, eh + ph)).
  { subst x ph. destruct (l_phnum l); [|f_equal; f_equal; lia]. unfold u64. rewrite Z.mod_small by lia. rewrite s64_id by lia. reflexivity. }
  rewrite X in E. cbn [obind] in E. clear x X.
  assert (HP : forall q, packed (eh + ph) q size -> packed 0 ((1, 0, eh) :: match l_phnum l with Some n => [(1, eh, (if l_64 l then 56 else 32) * n)] | None => [] end ++ q) size).
  { intros q Q. apply pk_cons; [lia|reflexivity|lia|lia|]. subst ph. destruct (l_phnum l); cbn [app].
    - apply pk_cons; [lia|apply Z.mod_1_r|lia|assumption|exact Q].
    - rewrite Z.add_0_r in Q. exact Q. }
  unfold sections in *. destruct (l_scns l) as [ss|] eqn:ES.
  - destruct (lay_scns l (eh + ph) ss) as [[ss' sz]| | |] eqn:EL; cbn [obind] in E; try discriminate E.
    destruct (lay_scns_ok l ss (eh + ph) ss' sz LL F ltac:(lia) ltac:(lia) EL) as (R1 & R2 & R3 & R4).
    pose proof (packed_le _ _ _ R1) as LE.
    set (al := if l_64 l then 8 else 4) in *. assert (AL : pow2 al /\ 0 < al <= 8) by (subst al; destruct (l_64 l); (split; [|lia]); [exists 3|exists 2]; split; reflexivity || lia).
    destruct (mask64 sz al (proj1 AL) ltac:(lia) ltac:(lia) ltac:(lia)) as [M1 M2].
    set (o := Z.land (u64 (sz + al - 1)) (u64 (Z.lnot (al - 1)))) in *. clearbody o.
    rewrite (s64_id o) in E by lia. rewrite (u32_id o) in E by lia.
    assert (U : u64 ((if l_64 l then 64 else 40) * (1 + zlen ss)) = (if l_64 l then 64 else 40) * (1 + zlen ss)) by (unfold u64; apply Z.mod_small; destruct (l_64 l); lia).
    rewrite U in E. rewrite s64_id in E by (destruct (l_64 l); lia). injection E as <- <-. cbn [l_scns l_64 l_phnum l_phoff l_shoff].
    assert (ZL : zlen ss' = zlen ss) by (unfold zlen; rewrite (F2_len _ _ _ R3); reflexivity).
    split; [|split; [exact R4|split; [exact R3|split; [reflexivity|split; [reflexivity|split; discriminate]]]]].
    unfold regions, ehdr_region, phdr_regions, shdr_regions, sections. cbn [l_scns l_64 l_phnum l_phoff l_shoff]. fold eh al.
    match goal with |- packed 0 (_ :: ?p ++ _) _ => replace p with (match l_phnum l with Some n => [(1, eh, (if l_64 l then 56 else 32) * n)] | None => [] end) by (destruct (l_phnum l); reflexivity) end.
    apply HP. eapply packed_app; [exact R1|]. rewrite ZL. apply pk_cons; [lia|assumption|lia|destruct (l_64 l); lia|constructor].
  - injection E as <- <-. cbn [l_scns l_64 l_phnum l_phoff l_shoff]. split; [|split; [constructor|split; [constructor|split; [reflexivity|split; [reflexivity|tauto]]]]].
    unfold regions, ehdr_region, phdr_regions, shdr_regions, sections. cbn [l_scns l_64 l_phnum l_phoff l_shoff map app]. fold eh.
    match goal with |- packed 0 (_ :: ?p ++ _) _ => replace p with (match l_phnum l with Some n => [(1, eh, (if l_64 l then 56 else 32) * n)] | None => [] end) by (destruct (l_phnum l); reflexivity) end.
    apply HP. constructor.
Qed.

(* C27: hence no two of them overlap, all are inside the file, and sections and buffers are aligned in the file. *)
Theorem C27_disjoint_partial : forall l l' size, l_layout l = false -> file_ok l -> need l < two32 ->
  updatenull l = Ok (l', size) ->
  (forall i j a s n b t m, (i < j)%nat -> nth_error (regions l') i = Some (a, s, n) -> nth_error (regions l') j = Some (b, t, m) -> 0 <= s /\ s + n <= t /\ t + m <= size) /\
  (forall s, In s (sections l') -> s_off s mod s_align s = 0 /\
     (forall i j d d', (i < j)%nat -> nth_error (blocks s) i = Some d -> nth_error (blocks s) j = Some d' -> d_off d + d_size d <= d_off d') /\
     (forall d, In d (blocks s) -> 0 <= d_off d /\ d_off d + d_size d <= s_size s /\ (s_off s + d_off d) mod d_align d = 0)).
Proof.
  intros l l' size LL F B E. destruct (C27_layout_partial l l' size LL F B E) as (P & PL & _).
  split; [exact (packed_disjoint _ _ _ P)|]. intros s IS. pose proof (proj1 (Forall_forall _ _) PL s IS) as (PA & PD & PB). cbn beta in *.
  assert (RM : s_off s mod s_align s = 0).
  { apply (packed_in _ _ _ P (s_align s) (s_off s) (if s_type s =? SHT_NOBITS then 0 else s_size s)). right. apply in_app_iff. right. apply in_app_iff. left.
    change (s_align s, s_off s, if s_type s =? SHT_NOBITS then 0 else s_size s) with (scn_region s). apply in_map. exact IS. }
  split; [exact RM|]. unfold blocks, data_regions in *. destruct (s_data s) as [ds|] eqn:ED; [|split; [intros i j d d' _ H; destruct i; discriminate H|intros d []]].
  unfold blocks in PB. rewrite ?ED in PB. split.
  - intros i j d d' IJ H1 H2. apply (packed_disjoint _ _ _ PB i j (d_align d) (d_off d) (d_size d) (d_align d') (d_off d') (d_size d') IJ); unfold data_regions, blocks in *.
    + apply (map_nth_error (fun d => (d_align d, d_off d, d_size d))). exact H1.
    + apply (map_nth_error (fun d => (d_align d, d_off d, d_size d))). exact H2.
  - intros d ID. pose proof (proj1 (Forall_forall _ _) PD d ID) as (P2 & DV). cbn beta in *.
    destruct (packed_in _ _ _ PB (d_align d) (d_off d) (d_size d)) as (Q1 & Q2 & Q3); [apply in_map_iff; exists d; split; [reflexivity|exact ID]|].
    split; [lia|]. split; [lia|]. pose proof (pow2_pos _ P2). pose proof (pow2_pos _ PA).
    apply Z.mod_divide; [lia|]. apply Z.divide_add_r; [|apply Z.mod_divide; [lia|exact Q3]].
    apply Z.divide_trans with (s_align s); apply Z.mod_divide; lia.
Qed.

Lemma data_err ds : forall size off al, Forall (fun d => d_ver d = 1 /\ powerof2 (d_align d) = true) ds -> exists r, lay_data false size ds off al = Ok r.
Proof. intros. apply lay_data_succeeds; assumption. Qed.

(* C27: and it succeeds, for versions and alignments as they should be *)
Theorem C27_succeeds_partial : forall l, l_layout l = false -> file_ok l -> need l < two32 -> l_perm l = true ->
  (forall s, In s (sections l) -> (s_align s = 0 \/ pow2 (s_align s)) /\ (s_type s = 17 -> l_rel l = true) /\ Forall (fun d => d_ver d = 1 /\ pow2 (d_align d)) (blocks s)) ->
  exists l' size, updatenull l = Ok (l', size).
Proof.
  intros l LL (F & PN) B PE H. unfold updatenull. rewrite LL. cbv zeta.
  assert (K : forall ss size, Forall scn_ok ss -> 0 <= size -> size + ssum ss < two32 -> (forall s, In s ss -> In s (sections l)) -> exists r, lay_scns l size ss = Ok r).
  { induction ss as [|s ss IH]; intros size FS SZ SB SUB; cbn [lay_scns]; [eexists; reflexivity|].
    inversion FS as [|? ? K FS']; subst. destruct (H s (SUB s ltac:(left; reflexivity))) as (H1 & H2 & H3).
    cbn [ssum fold_right] in SB. fold (ssum ss) in SB. pose proof (ssum_nonneg ss FS'). pose proof (need_nonneg s K).
    assert (L1 : exists r, lay_scn l size s = Ok r).
    { unfold lay_scn. rewrite LL. cbv zeta. destruct K as (KA & KR & KF).
      assert (EA : u32 (if s_align s =? 0 then 1 else s_align s) = Z.max 1 (s_align s)) by (destruct (s_align s =? 0) eqn:E0; unfold u32; rewrite Z.mod_small; lia). rewrite EA.
      assert (PA : pow2 (Z.max 1 (s_align s))).
      { destruct H1 as [->|P]; [exists 0; split; [lia|reflexivity]|]. apply pow2_max; [exists 0; split; [lia|reflexivity]|assumption]. }
      rewrite (pow2_powerof2 _ PA). cbn [negb].
      assert (EN : exists e, entsize l s = Ok e).
      { unfold entsize. cbv zeta. destruct (s_type s =? 17) eqn:E17; [rewrite H2 by lia|];
        repeat match goal with |- context [if ?b then _ else _] => destruct b end; eexists; reflexivity. }
      destruct EN as (e & ->). cbn [obind].
      set (x := match s_data s with Some ds => _ | None => _ end).
      assert (X : exists dd off al, x = Ok (dd, off, al) /\ 0 <= off <= need_size s /\ 0 < al <= need_align s /\ pow2 al /\ al < two32).
      { subst x. unfold need_size, need_align, blocks in *. destruct (s_data s) as [ds|].
        - fold (dsum ds) in *. fold (amax ds (Z.max 1 (s_align s))) in *. pose proof (amax_le ds (Z.max 1 (s_align s))).
          destruct (lay_data_succeeds (s_size s) ds 0 (Z.max 1 (s_align s))) as [[[ds1 off1] al1] EL].
          { eapply Forall_impl; [|exact H3]. cbn beta. intros d (V & P). split; [assumption|apply pow2_powerof2; assumption]. }
          rewrite EL. cbn [obind]. destruct (lay_data_ok (s_size s) ds 0 (Z.max 1 (s_align s)) ds1 off1 al1 KF ltac:(lia) ltac:(lia) PA ltac:(lia) EL) as (R1 & R2 & R3 & R4 & R5 & _).
          pose proof (packed_le _ _ _ R1). pose proof (pow2_pos _ R4). exists (Some ds1), off1, al1. split; [reflexivity|]. split; [lia|]. split; [lia|]. split; assumption.
        - exists None, (s_raw s), (Z.max 1 (s_align s)). rewrite s64_id by lia. split; [reflexivity|]. cbn [fold_right]. split; [lia|]. split; [lia|]. split; [assumption|lia]. }
      destruct X as (dd & off & al & -> & X1 & X2 & X3 & X4). cbn [obind]. unfold sadd.
      replace ((- two63 <=? size + (al - 1)) && (size + (al - 1) <? two63)) with true by lia. cbn [obind].
      destruct (mask32 size al X3 X4 SZ ltac:(lia)) as [M1 M2]. set (o := Z.land (size + (al - 1)) (u32 (Z.lnot (al - 1)))) in *. clearbody o.
      rewrite PE. cbn [negb]. replace ((- two63 <=? o + off) && (o + off <? two63)) with true by lia.
      destruct (s_type s =? SHT_NOBITS); cbn [obind s_ent]; rewrite andb_false_r; eexists; reflexivity. }
    destruct L1 as ([s1 size1] & L1). rewrite L1. cbn [obind].
    destruct (lay_scn_ok l s size s1 size1 LL K SZ ltac:(lia) L1) as (R1 & R2 & _). pose proof (packed_le _ _ _ R1).
    destruct (IH size1 FS' ltac:(lia) ltac:(lia) (fun s0 I0 => SUB s0 (or_intror I0))) as ([ss2 sz2] & ->). cbn [obind]. eexists. reflexivity. }
  unfold need in B. fold (ssum (sections l)) in B. pose proof (ssum_nonneg _ F) as SN. pose proof (zlen_nonneg _ (sections l)) as ZN.
  set (x := match l_phnum l with None => _ | Some _ => _ end).
  assert (X : exists po, x = Ok (po, (if l_64 l then 64 else 52) + match l_phnum l with Some n => (if l_64 l then 56 else 32) * n | None => 0 end)).
  { subst x. unfold ehdr_size, phdr_size. destruct (l_phnum l) as [n|]; [|eexists; f_equal; f_equal; lia]. eexists. f_equal. f_equal. unfold u64. destruct (l_64 l); rewrite Z.mod_small by lia; apply s64_id; lia. }
  destruct X as (po & ->). cbn [obind]. unfold sections in *. destruct (l_scns l) as [ss|] eqn:ES; [|eexists; eexists; reflexivity].
  match goal with |- context [lay_scns l ?z ss] => destruct (K ss z F) as ([ss' sz] & ->) end.
  - destruct (l_phnum l); destruct (l_64 l); lia.
  - lia.
  - auto.
  - cbn [obind]. eexists. eexists. reflexivity.
Qed.

(* ------------------------------------------------------------------ *)
Definition ex_l (ss : list scn) : elfl := El true false true false 4 (Some 2) 0 0 (Some ss).
Definition ex_s (t al : Z) (ds : list dblk) : scn := Sc t 2 al 0 0 0 (Some ds) 0 None.
Example C27_nonvacuous : let l := ex_l [ex_s 1 16 [Db 4 5 0 1; Db 8 3 0 1]; ex_s 8 32 [Db 1 100 0 1]; ex_s 1 0 [Db 1 7 0 1]] in
  file_ok l /\ need l < two32 /\
  exists l', updatenull l = Ok (l', 456) /\ map (fun s => (s_off s, s_size s, map d_off (blocks s))) (sections l') = [(176, 11, [0; 8]); (192, 100, [0]); (192, 7, [0])] /\ l_shoff l' = 200.
Proof.
  cbv zeta. split; [|split; [vm_compute; reflexivity|]].
  - unfold file_ok, sections. cbn [ex_l l_scns l_phnum]. split; [|lia].
    repeat (constructor; [unfold scn_ok, blocks, dblk_ok, is_u64; cbn; split; [lia|]; split; [lia|]; repeat (constructor; [cbn; lia|]); constructor|]). constructor.
  - eexists. split; [vm_compute; reflexivity|]. split; reflexivity.
Qed.

Lemma nth_in {A} (l : list A) n x : nth_error l n = Some x -> In x l.
Proof. apply nth_error_In. Qed.
(* C27: buffers without an alignment, as elf_newdata leaves them, are all put at offset 0 of the section, and the section is as large as the last one *)
Theorem C27_align_refuted : exists l l' size s d d', l_layout l = false /\ updatenull l = Ok (l', size) /\ nth_error (sections l') 0 = Some s /\
  nth_error (blocks s) 0 = Some d /\ nth_error (blocks s) 1 = Some d' /\ d_off d = d_off d' /\ d_size d = 100 /\ d_size d' = 10 /\ s_size s = 10.
Proof. exists (ex_l [ex_s 1 16 [Db 0 100 0 1; Db 0 10 0 1]]). do 5 eexists. split; [reflexivity|]. split; [vm_compute; reflexivity|]. cbn. repeat split. Qed.
(* C27: a 64-bit file of 4 GiB: the next section is put over the ELF header, and the size of the file is that of a small one *)
Theorem C27_big_refuted : exists l l' size s s', l_64 l = true /\ l_layout l = false /\ file_ok l /\ updatenull l = Ok (l', size) /\
  nth_error (sections l') 0 = Some s /\ nth_error (sections l') 1 = Some s' /\ s_off s = 176 /\ s_size s = two32 - 176 /\ s_off s' = 0 /\ s_size s' = 8 /\ size = 200.
Proof.
  exists (ex_l [Sc 1 2 1 0 0 0 (Some [Db 1 (two32 - 176) 0 1]) 0 None; ex_s 1 1 [Db 1 8 0 1]]). do 4 eexists. split; [reflexivity|]. split; [reflexivity|]. split.
  - unfold file_ok, sections. cbn [ex_l l_scns l_phnum]. split; [|lia].
    repeat (constructor; [unfold scn_ok, blocks, dblk_ok, is_u64; cbn; split; [lia|]; split; [lia|]; repeat (constructor; [cbn; lia|]); constructor|]). constructor.
  - split; [vm_compute; reflexivity|]. cbn. repeat split.
Qed.
(* C27: a 64-bit section with an alignment of 4 GiB is put over the ELF header too *)
Theorem C27_secalign_refuted : exists l l' size s, l_64 l = true /\ l_layout l = false /\ updatenull l = Ok (l', size) /\
  nth_error (sections l') 0 = Some s /\ s_align s = 0 /\ s_off s = 0 /\ s_size s = 8.
Proof.
  exists (ex_l [Sc 1 2 two32 0 0 0 None 8 None]). do 3 eexists. split; [reflexivity|]. split; [reflexivity|]. split; [vm_compute; reflexivity|]. cbn. repeat split.
Qed.
Print Assumptions C27_layout_partial.
Print Assumptions C27_disjoint_partial.
Print Assumptions C27_succeeds_partial.
Print Assumptions C27_align_refuted.
Print Assumptions C27_big_refuted.
Print Assumptions C27_secalign_refuted.

(* ------------------------------------------------------------------ *)
(* C28 *)
(* everything the user gave lies below 4 GiB *)
Definition small_scn (s : scn) : Prop := 0 <= s_off s /\ 0 <= s_size s /\ s_off s + s_size s < two32 /\ 0 <= s_align s < two32 /\
  Forall (fun d => 0 <= d_off d /\ 0 <= d_size d /\ d_off d + d_size d < two32 /\ 0 <= d_align d < two32) (blocks s).
Definition small (l : elfl) : Prop :=
  Forall small_scn (sections l) /\ 0 <= l_phoff l /\ 0 <= l_shoff l /\
  match l_phnum l with Some n => 0 <= n /\ l_phoff l + (if l_64 l then 56 else 32) * n < two32 | None => True end /\
  l_shoff l + (if l_64 l then 64 else 40) * (1 + zlen (sections l)) < two32.
(* the end of a region; the size of the file is the largest end *)
Definition rend (r : Z * Z * Z) : Z := snd (fst r) + snd r.
Definition covers (size : Z) (l : list (Z * Z * Z)) : Prop := Forall (fun r => rend r <= size) l /\ Exists (fun r => rend r = size) l.
(* the sections that have bytes in the file *)
Definition in_file (s : scn) : bool := negb (s_type s =? SHT_NOBITS).
Definition file_regions (l : elfl) : list (Z * Z * Z) := ehdr_region l :: phdr_regions l ++ map scn_region (filter in_file (sections l)) ++ shdr_regions l.
(* only the entry size, which is not part of the layout, may change *)
Definition same_layout (s s' : scn) : Prop :=
  s_type s' = s_type s /\ s_flags s' = s_flags s /\ s_align s' = s_align s /\ s_off s' = s_off s /\ s_size s' = s_size s /\ s_data s' = s_data s /\ s_raw s' = s_raw s /\ s_chsize s' = s_chsize s.

Lemma user_data size ds : forall off al ds' off' al', Forall (fun d => 0 <= d_off d /\ 0 <= d_size d /\ d_off d + d_size d < two32 /\ 0 <= d_align d < two32) ds -> 0 < al < two32 ->
  lay_data true size ds off al = Ok (ds', off', al') ->
  ds' = ds /\ Forall (fun d => d_off d + d_size d <= size /\ powerof2 (d_align d) = true /\ d_align d <= al') ds /\ al <= al' < two32.
Proof.
  induction ds as [|d ds IH]; intros off al ds' off' al' F L E; cbn [lay_data] in E.
  - injection E as <- <- <-. split; [reflexivity|]. split; [constructor|lia].
  - inversion F as [|? ? D F']; subst. destruct ((d_ver d =? 0) || (2 <=? d_ver d)); [discriminate E|]. destruct (powerof2 (d_align d)) eqn:EP; [|discriminate E]. cbn [negb] in E. cbv zeta in E.
    rewrite !u32_id in E by lia. destruct (size <? d_off d + d_size d) eqn:ES; [discriminate E|].
    destruct (lay_data true size ds off (Z.max al (d_align d))) as [[[ds1 off1] al1]| | |] eqn:EL; cbn [obind] in E; try discriminate E. injection E as <- <- <-.
    destruct (IH off (Z.max al (d_align d)) ds1 off1 al1 F' ltac:(lia) EL) as (-> & R & L1). split; [reflexivity|].
    split; [|lia]. constructor; [|assumption]. split; [lia|]. split; [assumption|lia].
Qed.
Lemma user_scn l s size s' size' : l_layout l = true -> small_scn s -> 0 <= size < two32 -> lay_scn l size s = Ok (s', size') ->
  same_layout s s' /\ size' = Z.max size (if s_type s =? SHT_NOBITS then 0 else s_off s + s_size s) /\
  powerof2 (s_align s) = true /\
  Forall (fun d => d_off d + d_size d <= s_size s /\ powerof2 (d_align d) = true /\ d_align d <= Z.max 1 (s_align s)) (blocks s).
Proof.
  intros LL (S1 & S2 & S3 & S4 & F) SZ E. unfold lay_scn in E. rewrite LL in E. cbv zeta in E.
  set (al := u32 (if s_align s =? 0 then 1 else s_align s)) in *.
  assert (EA : al = Z.max 1 (s_align s)) by (subst al; destruct (s_align s =? 0) eqn:E0; unfold u32; rewrite Z.mod_small; lia). clearbody al.
  destruct (negb (powerof2 al)); [discriminate E|].
  destruct (entsize l s) as [ent| | |]; cbn [obind] in E; try discriminate E.
  set (x := match s_data s with Some ds => _ | None => _ end) in E.
  assert (X : forall dd off al', x = Ok (dd, off, al') -> dd = s_data s /\ al <= al' < two32 /\ Forall (fun d => d_off d + d_size d <= s_size s /\ powerof2 (d_align d) = true /\ d_align d <= al') (blocks s)).
  { intros dd off al' EX. subst x. unfold blocks in *. destruct (s_data s) as [ds|].
    - destruct (lay_data true (s_size s) ds 0 al) as [[[ds1 off1] al1]| | |] eqn:EL; cbn [obind] in EX; try discriminate EX. injection EX as <- <- <-.
      destruct (user_data (s_size s) ds 0 al ds1 off1 al1 F ltac:(lia) EL) as (-> & R & L). split; [reflexivity|]. split; [lia|assumption].
    - injection EX as <- <- <-. split; [reflexivity|]. split; [lia|constructor]. }
  destruct x as [[[dd off] al']| | |]; cbn [obind] in E; try discriminate E.
  destruct (X dd off al' eq_refl) as (-> & X2 & X3). clear X.
  set (e := if s_type s =? SHT_NOBITS then 0 else _) in E.
  assert (EE : e = if s_type s =? SHT_NOBITS then 0 else s_off s + s_size s).
  { subst e. destruct (s_type s =? SHT_NOBITS); [reflexivity|]. unfold u64, u32. destruct (l_64 l); apply Z.mod_small; lia. }
  clearbody e. assert (E0 : 0 <= e < two32) by (rewrite EE; destruct (s_type s =? SHT_NOBITS); lia).
  rewrite u32_id in E by lia. rewrite s64_id in E by lia.
  destruct (powerof2 (s_align s)) eqn:EP; cbn [negb orb] in E; [|discriminate E].
  destruct ((if s_align s =? 0 then 1 else s_align s) <? al') eqn:EAL; [discriminate E|]. cbn [obind] in E.
  assert (R : s' = Sc (s_type s) (s_flags s) (s_align s) ent (s_off s) (s_size s) (s_data s) (s_raw s) (s_chsize s) /\ size' = Z.max size e).
  { cbn [s_ent s_size] in E. destruct (negb (ent =? 0) && negb (ent =? 1) && negb (l_perm l)); [|injection E as <- <-; split; reflexivity].
    destruct (Z.land (s_flags s) SHF_COMPRESSED =? 0); cbn [obind] in E.
    - destruct (negb (u32 (s_size s) mod ent =? 0)); [discriminate E|]. injection E as <- <-; split; reflexivity.
    - destruct (s_chsize s) as [n|]; cbn [obind] in E; [|discriminate E]. destruct (negb (u32 n mod ent =? 0)); [discriminate E|]. injection E as <- <-; split; reflexivity. }
  destruct R as [-> ->]. split; [repeat split|]. split; [rewrite EE; reflexivity|]. split; [reflexivity|].
  eapply Forall_impl; [|exact X3]. cbn beta. intros d (D1 & D2 & D3). split; [assumption|]. split; [assumption|]. destruct (s_align s =? 0) eqn:EZ; lia.
Qed.
Lemma user_scns l ss : forall size ss' size', l_layout l = true -> Forall small_scn ss -> 0 <= size < two32 -> lay_scns l size ss = Ok (ss', size') ->
  Forall2 same_layout ss ss' /\ size <= size' < two32 /\ Forall (fun r => rend r <= size') (map scn_region (filter in_file ss')) /\ (size' = size \/ Exists (fun r => rend r = size') (map scn_region (filter in_file ss'))) /\
  Forall (fun s => powerof2 (s_align s) = true /\ Forall (fun d => d_off d + d_size d <= s_size s /\ powerof2 (d_align d) = true /\ d_align d <= Z.max 1 (s_align s)) (blocks s)) ss'.
Proof.
  induction ss as [|s ss IH]; intros size ss' size' LL F SZ E; cbn [lay_scns] in E.
  - injection E as <- <-. cbn [map]. split; [constructor|]. split; [lia|]. split; [constructor|]. split; [left; reflexivity|constructor].
  - inversion F as [|? ? K F']; subst.
    destruct (lay_scn l size s) as [[s1 size1]| | |] eqn:E1; cbn [obind] in E; try discriminate E.
    destruct (lay_scns l size1 ss) as [[ss1 size2]| | |] eqn:E2; cbn [obind] in E; try discriminate E. injection E as <- <-.
    destruct (user_scn l s size s1 size1 LL K SZ E1) as (R1 & R2 & R3 & R4).
    destruct K as (K1 & K2 & K3 & _).
    assert (L1 : size <= size1 < two32) by (rewrite R2; destruct (s_type s =? SHT_NOBITS); lia).
    destruct (IH size1 ss1 size2 LL F' ltac:(lia) E2) as (T1 & T2 & T3 & T4 & T5).
    pose proof R1 as (Q1 & Q2 & Q3 & Q4 & Q5 & Q6 & Q7 & Q8).
    assert (RE : s_type s =? SHT_NOBITS = false -> rend (scn_region s1) = s_off s + s_size s) by (intro NN; unfold rend, scn_region; cbn [fst snd]; rewrite Q1, Q4, Q5, NN; reflexivity).
    split; [constructor; assumption|]. split; [lia|]. cbn [filter]. assert (IF : in_file s1 = negb (s_type s =? SHT_NOBITS)) by (unfold in_file; rewrite Q1; reflexivity). rewrite IF. clear IF. destruct (s_type s =? SHT_NOBITS) eqn:EN; cbn [negb map].
    + split; [assumption|]. split; [destruct T4 as [T4|T4]; [left; lia|right; assumption]|].
      constructor; [|assumption]. unfold blocks in *. rewrite Q3, Q5, Q6. split; assumption.
    + specialize (RE eq_refl). split; [constructor; [lia|assumption]|]. split.
      * destruct T4 as [T4|T4]; [|right; right; assumption]. destruct (Z.max_spec size (s_off s + s_size s)) as [[? M]|[? M]]; [right; left; lia|left; lia].
      * constructor; [|assumption]. unfold blocks in *. rewrite Q3, Q5, Q6. split; assumption.
Qed.

(* C28: with everything below 4 GiB, elf_update accepts the user's layout only if every buffer lies inside its section's size with a power of two as alignment that the section's alignment
   covers; it leaves the layout alone, and the size it returns is the end of the last of headers, program headers, sections with contents and section headers. *)
Theorem C28_fits_partial : forall l l' size, l_layout l = true -> small l -> updatenull l = Ok (l', size) ->
  Forall (fun s => powerof2 (s_align s) = true /\ Forall (fun d => d_off d + d_size d <= s_size s /\ powerof2 (d_align d) = true /\ d_align d <= Z.max 1 (s_align s)) (blocks s)) (sections l') /\
  covers size (file_regions l') /\
  Forall2 same_layout (sections l) (sections l') /\ l_phoff l' = l_phoff l /\ l_shoff l' = l_shoff l /\ l_phnum l' = l_phnum l /\ l_64 l' = l_64 l.
Proof.
  intros l l' size LL (F & PO & SO & PN & SN) E. unfold updatenull in E. rewrite LL in E. cbv zeta in E. unfold ehdr_size, phdr_size, shdr_size in *.
  pose proof (zlen_nonneg _ (sections l)) as ZN.
  set (eh := if l_64 l then 64 else 52) in *. assert (EH : eh = 64 \/ eh = 52) by (subst eh; destruct (l_64 l); auto).
  set (sz0 := match l_phnum l with Some n => Z.max eh (l_phoff l + (if l_64 l then 56 else 32) * n) | None => eh end).
  set (x := match l_phnum l with None => _ | Some _ => _ end) in E.
  assert (X : x = Ok (l_phoff l, sz0)).
  { subst x sz0. destruct (l_phnum l) as [n|]; [|reflexivity]. unfold u64. assert (0 <= (if l_64 l then 56 else 32) * n) by (destruct (l_64 l); lia). set (pe := (if l_64 l then 56 else 32) * n) in *. clearbody pe. rewrite (Z.mod_small pe) by lia. rewrite Z.mod_small by lia. rewrite s64_id by lia. reflexivity. }
  rewrite X in E. cbn [obind] in E. clear x X.
  assert (C0 : 0 <= sz0 < two32 /\ covers sz0 (ehdr_region l :: phdr_regions l)).
  { subst sz0. unfold covers, ehdr_region, phdr_regions. fold eh. destruct (l_phnum l) as [n|].
    - assert (0 <= (if l_64 l then 56 else 32) * n) by (destruct (l_64 l); lia). set (pe := (if l_64 l then 56 else 32) * n) in *. clearbody pe. split; [lia|]. split; [constructor; [unfold rend; cbn [fst snd]; lia|constructor; [unfold rend; cbn [fst snd]; lia|constructor]]|].
      destruct (Z.max_spec eh (l_phoff l + pe)) as [[? M]|[? M]]; [right; left|left]; unfold rend; cbn [fst snd]; lia.
    - split; [lia|]. split; [constructor; [unfold rend; cbn [fst snd]; lia|constructor]|left; reflexivity]. }
  destruct C0 as (SZ & C1 & C2).
  assert (SAME : forall a b, ehdr_region l :: phdr_regions l = ehdr_region (El (l_64 l) (l_layout l) (l_perm l) (l_rel l) (l_hash l) (l_phnum l) (l_phoff l) a b) :: phdr_regions (El (l_64 l) (l_layout l) (l_perm l) (l_rel l) (l_hash l) (l_phnum l) (l_phoff l) a b)) by (intros; reflexivity).
  rewrite LL in SAME.
  assert (CA : forall s a b, covers s (a ++ b) <-> Forall (fun r => rend r <= s) a /\ Forall (fun r => rend r <= s) b /\ (Exists (fun r => rend r = s) a \/ Exists (fun r => rend r = s) b)).
  { intros s a b. unfold covers. rewrite Forall_app, Exists_app. tauto. }
  unfold sections in *. destruct (l_scns l) as [ss|] eqn:ES.
  - destruct (lay_scns l sz0 ss) as [[ss' sz]| | |] eqn:EL; cbn [obind] in E; try discriminate E.
    destruct (user_scns l ss sz0 ss' sz LL F SZ EL) as (R1 & R2 & R3 & R4 & R5).
    assert (U : u64 ((if l_64 l then 64 else 40) * (1 + zlen ss)) = (if l_64 l then 64 else 40) * (1 + zlen ss)) by (unfold u64; apply Z.mod_small; destruct (l_64 l); lia).
    rewrite U in E. clear U. assert (ZL : zlen ss' = zlen ss) by (unfold zlen; rewrite (F2_len _ _ _ R1); reflexivity).
    assert (SH : 0 <= (if l_64 l then 64 else 40) * (1 + zlen ss)) by (destruct (l_64 l); lia).
    set (sh := (if l_64 l then 64 else 40) * (1 + zlen ss)) in *.
    rewrite u32_id in E by lia. assert (U : u64 (l_shoff l + sh) = l_shoff l + sh) by (unfold u64; apply Z.mod_small; lia). rewrite U, s64_id in E by lia. injection E as <- <-.
    cbn [l_scns l_64 l_phnum l_phoff l_shoff]. split; [exact R5|]. split; [|repeat split; assumption].
    unfold file_regions, shdr_regions, sections. cbn [l_scns l_64 l_shoff]. rewrite app_comm_cons, <- SAME. apply CA. rewrite Forall_app, Exists_app, ZL. fold sh.
    assert (MONO : forall a b (q : list (Z * Z * Z)), a <= b -> Forall (fun r => rend r <= a) q -> Forall (fun r => rend r <= b) q) by (intros a b q AB Q; eapply Forall_impl; [|exact Q]; cbn beta; intros; lia).
    split; [eapply MONO; [|exact C1]; lia|]. split; [split; [eapply MONO; [|exact R3]; lia|constructor; [unfold rend; cbn [fst snd]; lia|constructor]]|].
    destruct (Z.max_spec sz (l_shoff l + sh)) as [[? M]|[? M]]; rewrite M.
    + right. right. left. reflexivity.
    + destruct R4 as [R4|R4]; [left; rewrite R4; assumption|right; left; assumption].
  - injection E as <- <-. cbn [l_scns l_64 l_phnum l_phoff l_shoff]. split; [constructor|]. split; [|repeat split; constructor].
    unfold file_regions, shdr_regions, sections. cbn [l_scns filter map app]. rewrite app_nil_r, <- SAME. split; assumption.
Qed.

Definition ex_u (c64 : bool) (ss : list scn) : elfl := El c64 true true false 4 None 0 500 (Some ss).
Example C28_nonvacuous : let l := ex_u true [Sc 1 2 16 0 100 50 (Some [Db 4 5 0 1; Db 8 3 47 1]) 0 None; Sc 8 2 1 0 9000 8000 (Some [Db 1 100 0 1]) 0 None] in
  small l /\ (exists l', updatenull l = Ok (l', 692)) /\
  updatenull (ex_u true [Sc 1 2 16 0 100 50 (Some [Db 4 5 0 1; Db 8 3 48 1]) 0 None]) = Err ELF_E_SECTION_TOO_SMALL.
Proof.
  cbv zeta. split; [|split; [eexists; vm_compute; reflexivity|vm_compute; reflexivity]].
  unfold small, sections. cbn [ex_u l_scns l_phnum l_phoff l_shoff l_64]. split; [|cbn; lia].
  repeat (constructor; [unfold small_scn, blocks; cbn; split; [lia|]; split; [lia|]; split; [lia|]; split; [lia|]; repeat (constructor; [cbn; lia|]); constructor|]). constructor.
Qed.
(* C28: a buffer that ends 4 GiB behind the end of its section is accepted, and so is one in front of the section *)
Theorem C28_buffer_refuted : exists l l' size s d d', l_layout l = true /\ l_64 l = true /\ updatenull l = Ok (l', size) /\ nth_error (sections l') 0 = Some s /\ blocks s = [d; d'] /\
  s_size s = 50 /\ d_off d = two32 /\ d_size d = 5 /\ d_off d' = -8 /\ d_size d' = 8.
Proof.
  exists (ex_u true [Sc 1 2 16 0 100 50 (Some [Db 4 5 two32 1; Db 8 8 (-8) 1]) 0 None]). do 5 eexists. split; [reflexivity|]. split; [reflexivity|]. split; [vm_compute; reflexivity|]. cbn. repeat split.
Qed.
(* C28: the size returned for a section at 5 GiB is that of a small file, if another section follows *)
Theorem C28_size_refuted : exists l l' size s, l_layout l = true /\ l_64 l = true /\ updatenull l = Ok (l', size) /\ nth_error (sections l') 0 = Some s /\ s_off s = 5368709120 /\ s_size s = 50 /\ size = 1073741874.
Proof.
  exists (ex_u true [Sc 1 2 16 0 5368709120 50 (Some [Db 4 5 0 1]) 0 None; Sc 1 2 16 0 100 50 (Some [Db 4 5 0 1]) 0 None]). do 3 eexists.
  split; [reflexivity|]. split; [reflexivity|]. split; [vm_compute; reflexivity|]. cbn. repeat split.
Qed.
(* C28: in a 32-bit file a section that ends behind 4 GiB is accepted and not counted *)
Theorem C28_wrap_refuted : exists l l' size s, l_layout l = true /\ l_64 l = false /\ updatenull l = Ok (l', size) /\ nth_error (sections l') 0 = Some s /\ s_off s = two32 - 64 /\ s_size s = 128 /\ size = 580.
Proof.
  exists (ex_u false [Sc 1 2 16 0 (two32 - 64) 128 (Some [Db 4 5 0 1]) 0 None]). do 3 eexists.
  split; [reflexivity|]. split; [reflexivity|]. split; [vm_compute; reflexivity|]. cbn. repeat split.
Qed.
Print Assumptions C28_fits_partial.
Print Assumptions C28_buffer_refuted.
Print Assumptions C28_size_refuted.
Print Assumptions C28_wrap_refuted.
