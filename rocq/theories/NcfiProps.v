(* Property C59: the entries of .debug_frame and .eh_frame are enumerated as encoded. *)
From Verif Require Import Base LebModel LebSpec LebProof DwModel Slice CfiModel CfiSpec CfiProof CfiSafe NcfiModel NcfiSpec NcfiProof NcfiSafe.

Ltac leb := split; [vm_compute; intuition congruence|split; [vm_compute; discriminate|try split; vm_compute; reflexivity]].

(* ------------------------------------------------------------------ *)
(* One entry. *)
Theorem C59_entry : forall c off x b, entry_bytes c off x b -> at_ (c_mem c) off b -> off + zlen b <= c_dsize c -> c_dsize c < two63 ->
  exists r, next_cfi c off = Ok (NEntry (off + zlen b) r) /\ describes c (off + zlen b) x r.
Proof. exact next_cfi_at. Qed.
Print Assumptions C59_entry.

(* All entries of a section that ends behind the last one or has a zero length there. *)
Theorem C59_walk : forall c es (b : bytes), entries_bytes c 0 es b -> at_ (c_mem c) 0 b -> zlen b <= c_dsize c -> c_dsize c < two63 ->
  (zlen b = c_dsize c \/ at_ (c_mem c) (zlen b) [0; 0; 0; 0] /\ zlen b + 4 <= c_dsize c) ->
  exists l, next_cfi_all (S (length es)) c 0 = Ok (l, NDone) /\
    Forall2 (fun e r => fst r = fst e /\ exists last, describes c last (snd e) (snd r)) es l.
Proof.
  intros c es b H.
  assert (G : forall off, entries_bytes c off es b -> at_ (c_mem c) off b -> off + zlen b <= c_dsize c -> c_dsize c < two63 ->
    (off + zlen b = c_dsize c \/ at_ (c_mem c) (off + zlen b) [0; 0; 0; 0] /\ off + zlen b + 4 <= c_dsize c) ->
    exists l, next_cfi_all (S (length es)) c off = Ok (l, NDone) /\
      Forall2 (fun e r => fst r = fst e /\ exists last, describes c last (snd e) (snd r)) es l).
  { clear H. intros off H. induction H as [off|off x b l r E EB IH]; intros A L D T.
    - exists []. split; [|constructor]. cbn [next_cfi_all length]. cbn in T. rewrite Z.add_0_r in T. pose proof (at_bound _ _ _ A) as [O _]. change (zlen (@nil Z)) with 0 in *.
      assert (next_cfi c off = Ok NDone) as ->; [|reflexivity]. unfold next_cfi. rewrite u64_small by lia.
      destruct T as [-> | [T1 T2]]; [replace ((c_dsize c =? two64 - 1) || (c_dsize c <=? c_dsize c + 4)) with true by lia; reflexivity|].
      destruct ((off =? two64 - 1) || (c_dsize c <=? off + 4)) eqn:E; [reflexivity|]. rewrite s64_small by lia.
      rewrite (rd_at (c_fle c) (c_mem c) off 4 0); [reflexivity|lia|lia|]. destruct (c_fle c); exact T1.
    - rewrite zlen_app in *. destruct (next_cfi_at c off x b E (at_app1 _ _ _ _ A) ltac:(pose proof (zlen_nonneg _ r); lia) D) as (y & Y1 & Y2).
      destruct (IH (at_app2 _ _ _ _ A)) as (l' & L1 & L2); try lia.
      { destruct T as [T | [T1 T2]]; [left; lia|right]. replace (off + zlen b + zlen r) with (off + (zlen b + zlen r)) by lia. split; [exact T1|lia]. }
      exists ((off, y) :: l'). split.
      + cbn [length]. change (next_cfi_all (S (S (length l))) c off) with
          (q <- next_cfi c off ;; match q with NEntry next x => ' (l, e) <- next_cfi_all (S (length l)) c next ;; Ok ((off, x) :: l, e) | _ => Ok ([], q) end).
        rewrite Y1. cbn [obind]. rewrite L1. reflexivity.
      + constructor; [|exact L2]. split; [reflexivity|]. exists (off + zlen b). exact Y2. }
  intros A L D T. apply (G 0 H A); try lia. destruct T as [T | [T1 T2]]; [left; lia|right; split; [exact T1|lia]].
Qed.
Print Assumptions C59_walk.

(* an .eh_frame with a CIE "zR" and an FDE, and a terminator *)
Definition ex_mem : bytes :=
  [20; 0; 0; 0; 0; 0; 0; 0; 1; 122; 82; 0; 1; 120; 16; 1; 27; 12; 7; 8; 144; 1; 0; 0] ++
  [16; 0; 0; 0; 28; 0; 0; 0; 0; 16; 0; 0; 32; 0; 0; 0; 0; 65; 14; 16] ++ [0; 0; 0; 0].
Definition ex_cfi : cfi := Cfi ex_mem 48 true false true 4096 0 0.
Definition ex_cie : acie := ACie 1 [122; 82] 1 (-8) 16 [27] [12; 7; 8; 144; 1; 0; 0].
Definition ex_fde : bytes := [0; 16; 0; 0; 32; 0; 0; 0; 0; 65; 14; 16].
Lemma ex_cie_bytes : entry_bytes ex_cfi 0 (ACIE ex_cie) (firstn 24 ex_mem).
Proof.
  exists false, 0, [1; 122; 82; 0; 1; 120; 16; 1; 27; 12; 7; 8; 144; 1; 0; 0]. split; [|split; [vm_compute; reflexivity|split; [reflexivity|split; [vm_compute; split; [discriminate|reflexivity]|reflexivity]]]].
  apply (CB ex_cfi ex_cie [] [122; 82] [] [1] [120] [16] [1; 27]).
  - left. reflexivity.
  - reflexivity.
  - left. split; reflexivity.
  - repeat constructor; lia.
  - leb.
  - leb.
  - reflexivity.
  - apply (AD_sized ex_cfi [82] [27] [1]). leb.
Qed.
Lemma ex_fde_bytes : entry_bytes ex_cfi 24 (AFDE 0 ex_fde) (firstn 20 (skipn 24 ex_mem)).
Proof.
  exists false, 28, ex_fde. split; [split; vm_compute; reflexivity|]. split; [vm_compute; reflexivity|].
  split; [cbn; lia|]. split; [vm_compute; split; [discriminate|reflexivity]|reflexivity].
Qed.
Example C59_walk_nonvacuous :
  entries_bytes ex_cfi 0 [(0, ACIE ex_cie); (24, AFDE 0 ex_fde)] (firstn 44 ex_mem) /\ at_ ex_mem 0 (firstn 44 ex_mem) /\
  at_ ex_mem 44 [0; 0; 0; 0] /\
  next_cfi_all 3 ex_cfi 0 = Ok ([(0, ECie (Cinfo 9 1 (-8) 16 16 1 0 17 24)); (24, EFde 0 32 44)], NDone).
Proof.
  split; [|split; [|split]].
  - apply (EB_cons ex_cfi 0 _ (firstn 24 ex_mem) _ (firstn 20 (skipn 24 ex_mem)) ex_cie_bytes).
    apply (EB_cons ex_cfi 24 _ (firstn 20 (skipn 24 ex_mem)) _ [] ex_fde_bytes). constructor.
  - split; [lia|split; [vm_compute; discriminate|reflexivity]].
  - split; [lia|split; [vm_compute; discriminate|reflexivity]].
  - vm_compute. reflexivity.
Qed.
(* a 64-bit .debug_frame CIE of version 4 with bare augmentation data "eh" "PL" *)
Definition ex_mem2 : bytes :=
  [255; 255; 255; 255; 0; 0; 0; 0; 0; 0; 0; 29] ++ [255; 255; 255; 255; 255; 255; 255; 255] ++
  [4; 101; 104; 80; 76; 0; 4; 0] ++ [9; 9; 9; 9] ++ [1; 124; 14] ++ [3; 1; 2; 3; 4; 27].
Definition ex_cfi2 : cfi := Cfi ex_mem2 41 false true false 0 0 0.
Definition ex_cie2 : acie := ACie 4 [101; 104; 80; 76] 1 (-4) 14 [3; 1; 2; 3; 4; 27] [].
Example C59_entry_nonvacuous :
  entry_bytes ex_cfi2 0 (ACIE ex_cie2) ex_mem2 /\ at_ (c_mem ex_cfi2) 0 ex_mem2 /\
  next_cfi ex_cfi2 0 = Ok (NEntry 41 (ECie (Cinfo 21 1 (-4) 14 35 6 4 41 41))).
Proof.
  split; [|split; [apply at_all|vm_compute; reflexivity]].
  exists true, (256 ^ 8 - 1), (skipn 20 ex_mem2). split; [|split; [vm_compute; reflexivity|split; [reflexivity|split; [vm_compute; split; [discriminate|reflexivity]|reflexivity]]]].
  apply (CB ex_cfi2 ex_cie2 [101; 104] [80; 76] [9; 9; 9; 9] [1] [124] [14] [3; 1; 2; 3; 4; 27]).
  - right. right. left. reflexivity.
  - reflexivity.
  - right. split; reflexivity.
  - repeat constructor; lia.
  - leb.
  - leb.
  - vm_compute. split; [intuition congruence|]. split; [discriminate|]. split; reflexivity.
  - apply (AD_bare ex_cfi2 [80; 76] [3; 1; 2; 3; 4; 27]). apply (L_pers ex_cfi2 3 [1; 2; 3; 4]); [reflexivity|]. apply L_lsda. constructor.
Qed.

(* ------------------------------------------------------------------ *)
(* Any bytes: the next offset lies behind this one and in the section. *)
Theorem C59_progress : forall c off r, bytes_ok (c_mem c) -> c_dsize c < two63 -> 0 <= off < two64 -> next_cfi c off = Ok r ->
  match r with NDone => True | NBad _ None => True | NBad _ (Some n) => off < n <= c_dsize c | NEntry n _ => off < n <= c_dsize c end.
Proof. exact next_cfi_progress. Qed.
Print Assumptions C59_progress.
Example C59_progress_nonvacuous : bytes_ok ex_mem /\ exists r, next_cfi ex_cfi 24 = Ok (NEntry 44 r).
Proof. split; [repeat constructor; unfold is_u8; lia|]. eexists. vm_compute. reflexivity. Qed.

(* Any bytes: nothing outside the section is read and what is returned lies inside the entry, except
   (1) for offsets within 4 of 2^64 (refuted by C59_wrap_refuted) and (2) for an entry that can be a CIE
   whose augmentation string has bare data (refuted by C59_bare_refuted). *)
Theorem C59_safe_partial : forall c off, bytes_ok (c_mem c) -> c_dsize c < two63 -> c_dsize c <= zlen (c_mem c) ->
  0 <= off -> off + 4 < two64 ->
  (forall a, a = off + 9 \/ a = off + 21 -> ~ bare_letters (c_mem c) a) ->
  exists r, next_cfi c off = Ok r /\ res_ok (c_dsize c) off r.
Proof.
  intros c off B D0 D O1 O2 NB. pose proof (next_cfi_safe c B D0 D off O1 O2 NB) as S0.
  assert (NE : forall e, next_cfi c off <> Err e).
  { assert (GU : forall mem p l e, get_uleb128 mem p l <> Err e).
    { assert (LOOP : forall mem n k p a e, uleb_loop mem n k p a <> Err e).
      { intros mem n. induction n as [|n IH]; intros k p a e; cbn [uleb_loop]; [discriminate|].
        unfold uleb_step. destruct (znth mem p); [|discriminate]. destruct (Z.land z 128 =? 0); cbn [obind]; [discriminate|apply IH]. }
      intros mem p l e. unfold get_uleb128, uleb_step. destruct (znth mem p); [|discriminate]. destruct (Z.land z 128 =? 0); cbn [obind]; [discriminate|apply LOOP]. }
    assert (GS : forall mem p l e, get_sleb128 mem p l <> Err e).
    { assert (LOOP : forall mem n k p a e, sleb_loop mem n k p a <> Err e).
      { intros mem n. induction n as [|n IH]; intros k p a e; cbn [sleb_loop]; [discriminate|].
        unfold sleb_step. destruct (znth mem p); [|discriminate]. destruct (Z.land z 128 =? 0); cbn [obind]; [discriminate|apply IH]. }
      intros mem p l e. unfold get_sleb128, sleb_step. destruct (znth mem p); [|discriminate]. destruct (Z.land z 128 =? 0); cbn [obind]; [discriminate|apply LOOP]. }
    assert (MC : forall mem n p e, memchr0 mem n p <> Err e).
    { intros mem n. induction n as [|n IH]; intros p e; cbn [memchr0]; [discriminate|]. unfold byte_at. destruct (znth mem p); cbn [obind]; [|discriminate].
      destruct (z =? 0); [discriminate|apply IH]. }
    assert (ES : forall x q e, encoded_value_size c x q <> Err e).
    { assert (LS : forall mem n p e, leb_scan mem n p <> Err e).
      { intros mem n. induction n as [|n IH]; intros p e; cbn [leb_scan]; [discriminate|]. unfold byte_at. destruct (znth mem p); cbn [obind]; [|discriminate].
        destruct (Z.land z 128 =? 0); [apply IH|discriminate]. }
      intros x q e. destruct q as [q|]; [|destruct (size_none c x) as [w ->]; discriminate].
      unfold encoded_value_size. destruct (x =? 255); [discriminate|].
      destruct (Z.land x 7 =? 2); [discriminate|]. destruct (Z.land x 7 =? 3); [discriminate|]. destruct (Z.land x 7 =? 4); [discriminate|].
      destruct (Z.land x 7 =? 0); [discriminate|]. destruct (Z.land x 7 =? 1); [|discriminate].
      destruct (leb_scan (c_mem c) (Z.to_nat (c_dsize c - q)) q) as [[w|]|w| |] eqn:E; cbn [obind]; try discriminate. exfalso. apply (LS _ _ _ _ E). }
    assert (AL : forall n ap p fs e, aug_loop c n ap p fs <> Err e).
    { induction n as [|n IH]; intros ap p fs e; cbn [aug_loop]; [discriminate|]. unfold byte_at. destruct (znth (c_mem c) ap) as [ch|]; cbn [obind]; [|discriminate].
      destruct (ch =? 0); [discriminate|]. destruct ((ch =? 76) || (ch =? 82)).
      - destruct (znth (c_mem c) p) as [x|]; cbn [obind]; [|discriminate]. destruct (encoded_value_size c x None) as [w|w| |] eqn:E; cbn [obind]; try discriminate; [apply IH|exfalso; apply (ES _ _ _ E)].
      - destruct (ch =? 80); [|destruct (ch =? 83); [apply IH|discriminate]].
        destruct (znth (c_mem c) p) as [x|]; cbn [obind]; [|discriminate]. destruct (encoded_value_size c x (Some (p + 1))) as [w|w| |] eqn:E; cbn [obind]; try discriminate; [apply IH|exfalso; apply (ES _ _ _ E)]. }
    assert (CN : forall next limit v aug nul p e, cie_numbers c next limit v aug nul p <> Err e).
    { intros next limit v aug nul p e. unfold cie_numbers, byte_at. destruct (znth (c_mem c) aug) as [a0|]; cbn [obind]; [|discriminate].
      assert (EE : forall (o : outcome bool) (k : bool -> outcome next_res), (forall e, o <> Err e) -> (forall b, k b <> Err e) -> obind o k <> Err e).
      { intros [b|w| |] k K1 K2; cbn [obind]; try discriminate; [apply K2|]. exfalso. apply (K1 w eq_refl). }
      apply EE. { intros w. destruct (a0 =? 101); [|discriminate]. destruct (znth (c_mem c) (aug + 1)); cbn [obind]; discriminate. }
      intros eh. cbv zeta. generalize (if eh then aug + 2 else aug). generalize (if eh then p + addr_width c else p). intros q ap.
      destruct (limit <=? q); [discriminate|]. destruct (get_uleb128 (c_mem c) q limit) as [[x1 q1]|w| |] eqn:E1; cbn [obind]; try discriminate; [|exfalso; apply (GU _ _ _ _ E1)].
      destruct (limit <=? q1); [discriminate|]. destruct (get_sleb128 (c_mem c) q1 limit) as [[x2 q2]|w| |] eqn:E2; cbn [obind]; try discriminate; [|exfalso; apply (GS _ _ _ _ E2)].
      destruct (limit <=? q2); [discriminate|].
      assert (CT : forall x3 q3, cie_tail c next limit aug ap nul x1 x2 x3 q3 <> Err e).
      { intros x3 q3. unfold cie_tail, byte_at. destruct (znth (c_mem c) ap) as [z|]; cbn [obind]; [|discriminate]. destruct (z =? 122).
        - destruct (limit <=? q3); [discriminate|]. destruct (get_uleb128 (c_mem c) q3 limit) as [[x4 q4]|w| |] eqn:E3; cbn [obind]; try discriminate; [|exfalso; apply (GU _ _ _ _ E3)].
          destruct (u64 (limit - q4) <? x4); discriminate.
        - destruct (aug_loop c (Z.to_nat (nul - ap + 1)) ap q3 0) as [[x4 q4]|w| |] eqn:E3; cbn [obind]; try discriminate. exfalso; apply (AL _ _ _ _ _ E3). }
      destruct (3 <=? v).
      - destruct (get_uleb128 (c_mem c) q2 limit) as [[x3 q3]|w| |] eqn:E3; cbn [obind]; try discriminate; [apply CT|exfalso; apply (GU _ _ _ _ E3)].
      - destruct (znth (c_mem c) q2); cbn [obind]; [apply CT|discriminate]. }
    assert (CI : forall next limit p e, cie_entry c next limit p <> Err e).
    { intros next limit p e. unfold cie_entry, byte_at. destruct (znth (c_mem c) p) as [v|]; cbn [obind]; [|discriminate].
      destruct (negb (v =? 1) && ((v <? 3) || (4 <? v))); [discriminate|].
      destruct (memchr0 (c_mem c) (Z.to_nat (limit - (p + 1))) (p + 1)) as [[nul|]|w| |] eqn:E1; cbn [obind]; try discriminate; [|exfalso; apply (MC _ _ _ _ E1)].
      destruct (4 <=? v); [|apply CN]. destruct (limit - (nul + 1) <? 5); [discriminate|]. destruct (znth (c_mem c) (nul + 1)) as [s|]; cbn [obind]; [|discriminate].
      destruct (negb (s =? addr_width c)); [discriminate|]. destruct (znth (c_mem c) (nul + 1 + 1)) as [g|]; cbn [obind]; [|discriminate].
      destruct (negb (g =? 0)); [discriminate|apply CN]. }
    assert (RD : forall fle mem p n e, rd fle mem p n <> Err e) by (intros; unfold rd; destruct ((0 <=? p) && (p + n <=? zlen mem)); discriminate).
    assert (IE : forall osz next limit p e, id_entry c osz next limit p <> Err e).
    { intros osz next limit p e. unfold id_entry. destruct (rd (c_fle c) (c_mem c) p osz) as [v|w| |] eqn:E; cbn [obind]; try discriminate; [|exfalso; apply (RD _ _ _ _ _ E)].
      cbv zeta. generalize (if (osz =? 4) && negb (c_eh c) && (v =? two32 - 1) then two64 - 1 else v). intros id.
      destruct (c_eh c).
      - destruct (id =? 0); [apply CI|]. destruct ((p <? id) || (p <=? osz)); [discriminate|]. destruct (p - id =? two64 - 1); [apply CI|discriminate].
      - destruct (id =? two64 - 1); [apply CI|discriminate]. }
    intros e. unfold next_cfi. destruct ((off =? two64 - 1) || (c_dsize c <=? u64 (off + 4))); [discriminate|].
    destruct (rd (c_fle c) (c_mem c) (s64 off) 4) as [len|w| |] eqn:E; cbn [obind]; try discriminate; [|exfalso; apply (RD _ _ _ _ _ E)].
    destruct (len =? two32 - 1).
    - destruct (c_dsize c - (s64 off + 4) <? 8); [discriminate|]. destruct (rd (c_fle c) (c_mem c) (s64 off + 4) 8) as [len2|w| |] eqn:E2; cbn [obind]; try discriminate; [|exfalso; apply (RD _ _ _ _ _ E2)].
      destruct (len2 =? 0); [discriminate|]. destruct ((u64 (c_dsize c - (s64 off + 4 + 8)) <? len2) || (len2 <? 9)); [discriminate|apply IE].
    - destruct (len =? 0); [discriminate|]. destruct ((u64 (c_dsize c - (s64 off + 4)) <? len) || (len <? 5)); [discriminate|apply IE]. }
  destruct (next_cfi c off) as [r|e| |]; [exists r; split; [reflexivity|exact S0]|exfalso; apply (NE e eq_refl)|contradiction|contradiction].
Qed.
Print Assumptions C59_safe_partial.
Example C59_safe_nonvacuous : bytes_ok ex_mem /\ 48 <= zlen ex_mem /\
  (forall a, a = 0 + 9 \/ a = 0 + 21 -> ~ bare_letters ex_mem a) /\
  next_cfi ex_cfi 0 = Ok (NEntry 24 (ECie (Cinfo 9 1 (-8) 16 16 1 0 17 24))) /\
  next_cfi (Cfi (firstn 20 ex_mem) 20 true false true 4096 0 0) 0 = Ok (NBad DWARF_E_INVALID_DWARF None).
Proof.
  split; [repeat constructor; unfold is_u8; lia|]. split; [vm_compute; discriminate|]. split; [|split; vm_compute; reflexivity].
  intros a [-> | ->] (x & X & [Y | (Y & _)]); vm_compute in Y; try discriminate; injection Y as <-; cbn in X; lia.
Qed.

(* ------------------------------------------------------------------ *)
(* FALSE: that no byte outside the section is read.  The encoding bytes of an augmentation string without
   'z' are read without a check of the end of the entry: the string "R" and nothing behind the return
   address register reads one byte behind the section. *)
Definition bare_mem : bytes := [10; 0; 0; 0; 0; 0; 0; 0; 1; 82; 0; 1; 120; 16].
Theorem C59_bare_refuted : exists c, bytes_ok (c_mem c) /\ c_dsize c = zlen (c_mem c) /\ next_cfi c 0 = UB.
Proof. exists (Cfi bare_mem 14 true false true 0 0 0). split; [repeat constructor; unfold is_u8; lia|]. split; vm_compute; reflexivity. Qed.
Print Assumptions C59_bare_refuted.
(* FALSE: that the initial instructions of a returned CIE do not start behind its end.  Same cause; here the
   next entry follows, so that the byte read is in the section. *)
Theorem C59_bare_end_refuted : exists c n i, bytes_ok (c_mem c) /\ c_dsize c = zlen (c_mem c) /\
  next_cfi c 0 = Ok (NEntry n (ECie i)) /\ i_end i < i_ins i.
Proof.
  exists (Cfi (bare_mem ++ [0; 0; 0; 0; 0]) 19 true false true 0 0 0). eexists _, _. split; [repeat constructor; unfold is_u8; lia|].
  split; [vm_compute; reflexivity|]. split; vm_compute; reflexivity.
Qed.
Print Assumptions C59_bare_end_refuted.
(* FALSE: that an offset outside the section ends the enumeration.  off + 4 is computed modulo 2^64, so an
   offset of 2^64 - 2 passes the test and the bytes in front of the buffer are read.  Such offsets come
   from the CIE pointer of a 64-bit FDE of .debug_frame. *)
Theorem C59_wrap_refuted : exists c off, bytes_ok (c_mem c) /\ c_dsize c = zlen (c_mem c) /\ c_dsize c < off < two64 - 1 /\
  next_cfi c off = UB.
Proof. exists ex_cfi, (two64 - 2). split; [repeat constructor; unfold is_u8; lia|]. split; [reflexivity|]. split; [cbn; lia|]. vm_compute. reflexivity. Qed.
Print Assumptions C59_wrap_refuted.
(* FALSE: that the personality pointer of an augmentation string without 'z' is skipped when it is a ULEB128
   number.  encoded_value_size stops behind the first byte WITH the top bit set, not without: the
   one-byte number 5 is taken to be longer, and the instructions to start later. *)
Definition pers_mem : bytes := [16; 0; 0; 0; 0; 0; 0; 0; 1; 80; 0; 1; 120; 16; 1; 5] ++ [12; 7; 144; 1].
Theorem C59_personality_refuted : exists c n i p, c_mem c = pers_mem /\ next_cfi c 0 = Ok (NEntry n (ECie i)) /\
  uleb_of 5 [5] /\ at_ (c_mem c) (i_adata i) ([1] ++ [5] ++ [12; 7; 144; 1]) /\ p = i_adata i + zlen ([1] ++ [5]) /\ i_ins i <> p.
Proof.
  exists (Cfi pers_mem 20 true false true 0 0 0). eexists _, _, _. split; [reflexivity|]. split; [vm_compute; reflexivity|].
  split; [leb|]. split; [split; [vm_compute; discriminate|split; [vm_compute; discriminate|reflexivity]]|]. split; [reflexivity|]. vm_compute. discriminate.
Qed.
Print Assumptions C59_personality_refuted.

(* The size of the augmentation data of the FDEs, for strings without 'z': correct without 'R'. *)
Theorem C59_fdesize_partial : forall c s data k ap p n, fde_data c s data k -> ~ In 82 s -> at_ (c_mem c) ap (s ++ [0]) -> at_ (c_mem c) p data ->
  zlen s < Z.of_nat n -> k < two64 -> aug_loop c n ap p 0 = Ok (p + zlen data, k).
Proof. intros c s data k ap p n H NR A P N K. rewrite (aug_loop_fsize c s data k H NR ap p 0 n A P N) by lia. reflexivity. Qed.
Print Assumptions C59_fdesize_partial.
Example C59_fdesize_nonvacuous : fde_data ex_cfi2 [80; 76] [3; 1; 2; 3; 4; 27] 4 /\ at_ ex_mem2 23 ([80; 76] ++ [0]) /\
  at_ ex_mem2 35 [3; 1; 2; 3; 4; 27] /\ aug_loop ex_cfi2 3 23 35 0 = Ok (41, 4).
Proof.
  split; [apply (FD_pers ex_cfi2 3 [1; 2; 3; 4]); [reflexivity|]; apply (FD_lsda ex_cfi2 27 4 [] [] 0); [reflexivity|constructor]|].
  split; [split; [lia|split; [vm_compute; discriminate|reflexivity]]|]. split; [split; [lia|split; [vm_compute; discriminate|reflexivity]]|]. vm_compute. reflexivity.
Qed.
(* FALSE with 'R' (libdw.h:197-200: "fde_augmentation_data_size gives the number of bytes of augmentation data
   before the instructions"): 'R' gives the encoding of the two addresses of an FDE and adds no
   augmentation data, but the size of an encoded address is added. *)
Theorem C59_fdesize_refuted : exists c i, fde_data c [82] [27] 0 /\
  at_ (c_mem c) (i_aug i) ([82] ++ [0]) /\ at_ (c_mem c) (i_adata i) [27] /\
  next_cfi c 0 = Ok (NEntry 15 (ECie i)) /\ i_fsize i = 4.
Proof.
  exists (Cfi ([11; 0; 0; 0; 0; 0; 0; 0; 1; 82; 0; 1; 120; 16] ++ [27]) 15 true false true 0 0 0). eexists.
  split; [apply FD_addr; constructor|].
  split; [|split; [|split]]; [| |vm_compute; reflexivity|vm_compute; reflexivity]; split; (split || idtac); vm_compute; try discriminate; try reflexivity; split; try discriminate; reflexivity.
Qed.
Print Assumptions C59_fdesize_refuted.
