(* C87: the search for a section by its offset. *)
From Verif Require Import Base ElfErr OsModel.

(* The section that a search for [off] should give, of all sections in order: the first that has bytes in the file at
   that offset; if there is none, the last that starts there. *)
Definition has_bytes (h : oshdr) : Prop := o_size h <> 0 /\ o_type h <> 8.
Definition answer (scns : list oshdr) (off i : Z) : Prop :=
  exists a h b, scns = a ++ h :: b /\ zlen a = i /\ o_off h = off /\
  Forall (fun x => o_off x = off -> ~ has_bytes x) a /\
  (has_bytes h \/ (~ has_bytes h /\ Forall (fun x => o_off x <> off) b)).

(* before the scan: the remembered section is the last of those seen that start there, none of which has bytes *)
Definition seen (scns : list oshdr) (off : Z) (best : option Z) : Prop :=
  Forall (fun x => o_off x = off -> ~ has_bytes x) scns /\
  match best with
  | None => Forall (fun x => o_off x <> off) scns
  | Some i => exists a h b, scns = a ++ h :: b /\ zlen a = i /\ o_off h = off /\ Forall (fun x => o_off x <> off) b
  end.

Lemma seen_snoc : forall scns off best h, seen scns off best -> o_off h <> off -> seen (scns ++ [h]) off best.
Proof.
  intros scns off best h [S1 S2] N. split; [apply Forall_app; split; [exact S1|constructor; [congruence|constructor]]|].
  destruct best as [i|].
  - destruct S2 as (a & x & b & -> & Z1 & O1 & F1). exists a, x, (b ++ [h]). rewrite <- app_assoc. repeat split; auto. apply Forall_app; auto.
  - apply Forall_app. auto.
Qed.

Lemma scan_ok : forall l done rest off best, seen done off best ->
  exists over b', scan (map Some l) (zlen done) off best = Ok (over, b') /\
  (if over : bool then exists i, b' = Some i /\ answer (done ++ l ++ rest) off i else seen (done ++ l) off b').
Proof.
  induction l as [|h l IH]; intros done rest off best S.
  - exists false, best. split; [reflexivity|]. rewrite app_nil_r. exact S.
  - cbn [map scan]. replace (zlen done + 1) with (zlen (done ++ [h])) by (rewrite zlen_app, zlen_cons, zlen_nil; lia).
    replace (done ++ (h :: l) ++ rest) with ((done ++ [h]) ++ l ++ rest) by (rewrite <- app_assoc; reflexivity).
    replace (done ++ h :: l) with ((done ++ [h]) ++ l) by (rewrite <- app_assoc; reflexivity).
    destruct (o_off h =? off) eqn:E.
    + apply Z.eqb_eq in E. destruct (negb (o_size h =? 0) && negb (o_type h =? 8)) eqn:B.
      * exists true, (Some (zlen done)). split; [reflexivity|]. exists (zlen done). split; [reflexivity|].
        exists done, h, (l ++ rest). rewrite <- app_assoc. split; [reflexivity|]. split; [reflexivity|]. split; [exact E|]. split; [exact (proj1 S)|]. left.
        unfold has_bytes. lia.
      * apply IH. split.
        { apply Forall_app. split; [exact (proj1 S)|]. constructor; [|constructor]. intros _ [X Y]. lia. }
        { exists done, h, []. repeat split; auto. }
    + apply Z.eqb_neq in E. apply IH. apply seen_snoc; auto.
Qed.

Lemma scan_all_ok : forall bs done off best, seen done off best ->
  (exists i, scan_all (map (map Some) bs) (zlen done) off best = Ok (Some i) /\ answer (done ++ concat bs) off i) \/
  (scan_all (map (map Some) bs) (zlen done) off best = Ok None /\ Forall (fun x => o_off x <> off) (done ++ concat bs)).
Proof.
  induction bs as [|l bs IH]; intros done off best S; cbn [map scan_all concat].
  - rewrite app_nil_r. destruct S as [S1 S2]. destruct best as [i|]; [left|right; auto].
    exists i. split; [reflexivity|]. destruct S2 as (a & h & b & -> & Z1 & O1 & F1). exists a, h, b. split; [reflexivity|]. split; [exact Z1|]. split; [exact O1|].
    apply Forall_app in S1. destruct S1 as [S1 S3]. inversion S3 as [|? ? S4 S5]; subst. split; [exact S1|]. right. auto.
  - destruct (scan_ok l done (concat bs) off best S) as (over & b' & E & P). rewrite E. cbn [obind fst snd]. destruct over.
    + left. destruct P as (i & -> & P). exists i. split; [reflexivity|exact P].
    + replace (zlen done + zlen (map Some l)) with (zlen (done ++ l)) by (rewrite zlen_app; unfold zlen; rewrite map_length; reflexivity).
      rewrite app_assoc. apply IH. exact P.
Qed.

(* For every file whose section headers are in memory or can be read: the search gives the section it should, and an
   error exactly if no section starts at the offset. *)
Theorem C87_offscn : forall c64 first rest read off,
  (first = map Some read \/ (first = map (fun _ => None) read)) ->
  let d := Odesc true c64 (first :: map (map Some) rest) in
  (exists i, offscn (Some d) (Some read) off = Ok i /\ answer (read ++ concat rest) off i) \/
  (offscn (Some d) (Some read) off = Err ELF_E_INVALID_OFFSET /\ Forall (fun x => o_off x <> off) (read ++ concat rest)).
Proof.
  intros c64 first rest read off F d. unfold offscn, d. cbn [d_elf d_blocks negb].
  assert (L : load_first (Some read) (first :: map (map Some) rest) = Ok (map (map Some) (read :: rest))).
  { cbn [map]. destruct F as [-> | ->]; destruct read; reflexivity. }
  rewrite L. cbn [obind].
  assert (S : seen [] off None) by (split; constructor).
  destruct (scan_all_ok (read :: rest) [] off None S) as [(i & E & A)|(E & A)]; rewrite zlen_nil in E; rewrite E; cbn [obind].
  - left. exists i. split; [reflexivity|exact A].
  - right. split; [reflexivity|exact A].
Qed.
Print Assumptions C87_offscn.
(* an empty section, a section without bytes and one with bytes at 64; only an empty one at 100 *)
Definition demo : list oshdr := [Oshdr 0 0 0; Oshdr 64 0 1; Oshdr 64 8 8; Oshdr 64 16 1; Oshdr 80 20 3; Oshdr 100 0 1; Oshdr 100 4 8].
Definition dd (f : list (option oshdr)) : odesc := Odesc true false [f; [Some (Oshdr 64 4 1); Some (Oshdr 104 4 1)]].
Example C87_offscn_nonvacuous :
  offscn (Some (dd (map (fun _ => None) demo))) (Some demo) 64 = Ok 3 /\ offscn (Some (dd (map Some demo))) None 100 = Ok 6 /\
  offscn (Some (dd (map Some demo))) None 104 = Ok 8 /\ offscn (Some (dd (map Some demo))) None 65 = Err ELF_E_INVALID_OFFSET.
Proof. repeat split. Qed.

(* The answer is one: no two sections are both the right answer. *)
Theorem C87_unique : forall scns off i j, answer scns off i -> answer scns off j -> i = j.
Proof.
  intros scns off i j (a & h & b & E & Z1 & O1 & F1 & R1) (a' & h' & b' & E' & Z2 & O2 & F2 & R2).
  assert (W : forall (a b a' b' : list oshdr) h h', scns = a ++ h :: b -> scns = a' ++ h' :: b' -> zlen a < zlen a' -> In h a' /\ In h' b).
  { clear. intros a b a' b' h h' E1 E2. rewrite E1 in E2. revert a' E2 E1. induction a as [|x a IH] in scns |- *; intros a' E2 E1 L.
    - destruct a' as [|y a']; [rewrite zlen_nil in L; lia|]. injection E2 as -> ->. split; [left; reflexivity|]. apply in_or_app. right. left. reflexivity.
    - destruct a' as [|y a']; [rewrite zlen_nil, zlen_cons in L; pose proof (zlen_nonneg _ a); lia|]. injection E2 as -> E2. rewrite !zlen_cons in L.
      destruct (IH (a ++ h :: b) a' E2 eq_refl ltac:(lia)) as [I1 I2]. split; [right; exact I1|exact I2]. }
  assert (G : forall a h b a' h' b', scns = a ++ h :: b -> scns = a' ++ h' :: b' -> o_off h = off -> o_off h' = off ->
    Forall (fun x => o_off x = off -> ~ has_bytes x) a' -> (has_bytes h \/ (~ has_bytes h /\ Forall (fun x => o_off x <> off) b)) -> zlen a < zlen a' -> False).
  { intros x1 y1 z1 x2 y2 z2 E1 E2 O3 O4 F3 R3 L. destruct (W _ _ _ _ _ _ E1 E2 L) as [I1 I2].
    destruct R3 as [R3|[_ R3]]; [exact (proj1 (Forall_forall _ _) F3 _ I1 O3 R3)|exact (proj1 (Forall_forall _ _) R3 _ I2 O4)]. }
  destruct (Z.lt_trichotomy (zlen a) (zlen a')) as [L|[L|L]]; [destruct (G _ _ _ _ _ _ E E' O1 O2 F2 R1 L)|congruence|destruct (G _ _ _ _ _ _ E' E O2 O1 F1 R2 L)].
Qed.
Print Assumptions C87_unique.
Example C87_unique_nonvacuous : answer demo 64 3.
Proof.
  exists [Oshdr 0 0 0; Oshdr 64 0 1; Oshdr 64 8 8], (Oshdr 64 16 1), [Oshdr 80 20 3; Oshdr 100 0 1; Oshdr 100 4 8].
  split; [reflexivity|]. split; [reflexivity|]. split; [reflexivity|]. split; [|left; split; discriminate].
  repeat (apply Forall_cons; [intros X [Y Z]; cbn in *; congruence|]). apply Forall_nil.
Qed.

(* gelf_offscn: like the function of the class; a 32-bit file has no section at an offset that 32 bits cannot hold. *)
Theorem C87_gelf : forall e read off, 0 <= off < 2 ^ 64 ->
  gelf_offscn (Some e) read off = if negb (d_c64 e) && (2 ^ 32 <=? off) then Err ELF_E_INVALID_OFFSET else offscn (Some e) read off.
Proof.
  intros e read off B. unfold gelf_offscn. replace (negb (u32 off =? off)) with (2 ^ 32 <=? off); [reflexivity|].
  unfold u32. destruct (2 ^ 32 <=? off) eqn:X.
  - apply Z.leb_le in X. symmetry. apply negb_true_iff. apply Z.eqb_neq. pose proof (Z.mod_pos_bound off (2 ^ 32) ltac:(lia)). lia.
  - apply Z.leb_gt in X. rewrite Z.mod_small by lia. rewrite Z.eqb_refl. reflexivity.
Qed.
Print Assumptions C87_gelf.
Example C87_gelf_nonvacuous : gelf_offscn (Some (dd (map Some demo))) None (2 ^ 32 + 64) = Err ELF_E_INVALID_OFFSET /\ gelf_offscn (Some (dd (map Some demo))) None 64 = Ok 3.
Proof. split; reflexivity. Qed.

(* elf32_offscn and elf64_offscn accept a null descriptor; gelf_offscn reads its class first. *)
Theorem C87_null_refuted : forall read off, offscn None read off = Err ELF_E_NOERROR /\ gelf_offscn None read off = UB.
Proof. intros. split; reflexivity. Qed.
Print Assumptions C87_null_refuted.
