(* Specification and proofs for OpenModel. *)
From Verif Require Import Base ElfErr OpenModel.

(* ------------------------------------------------------------------ *)
(* Specification: the structures as the gABI lists them, field widths in order. *)
Definition ehdr_widths (c64 : bool) : list Z :=
  let w := if c64 then 8 else 4 in [16; 2; 2; 4; w; w; w; 4; 2; 2; 2; 2; 2; 2].
Definition shdr_widths (c64 : bool) : list Z :=
  if c64 then [4; 4; 8; 8; 8; 8; 4; 4; 8; 8] else [4; 4; 4; 4; 4; 4; 4; 4; 4; 4].
Definition phdr_size (c64 : bool) : Z := if c64 then 56 else 32.
Fixpoint total (ws : list Z) : Z := match ws with [] => 0 | w :: r => w + total r end.
(* A number in the byte order of the file. *)
Definition order (fle : bool) (b : bytes) : Z := if fle then le_value b else be_value b.
(* Field k of a structure at base. *)
Definition field (fle : bool) (img : bytes) (base : Z) (ws : list Z) (k : nat) : Z :=
  order fle (zsub img (base + total (firstn k ws)) (nth k ws 0)).

(* An ELF file inside img at off: class and byte order come from its e_ident. *)
Record view := View { v_img : bytes; v_off : Z; v_max : Z; v_c64 : bool; v_le : bool }.
Definition E_phoff v := field (v_le v) (v_img v) (v_off v) (ehdr_widths (v_c64 v)) 5.
Definition E_shoff v := field (v_le v) (v_img v) (v_off v) (ehdr_widths (v_c64 v)) 6.
Definition E_phnum v := field (v_le v) (v_img v) (v_off v) (ehdr_widths (v_c64 v)) 10.
Definition E_shnum v := field (v_le v) (v_img v) (v_off v) (ehdr_widths (v_c64 v)) 12.
Definition E_shstrndx v := field (v_le v) (v_img v) (v_off v) (ehdr_widths (v_c64 v)) 13.
Definition shdr_size v := total (shdr_widths (v_c64 v)).
Definition ehdr_size v := total (ehdr_widths (v_c64 v)).
(* Field k of section header i *)
Definition S_field v (i : Z) (k : nat) : Z :=
  field (v_le v) (v_img v) (v_off v + E_shoff v + i * shdr_size v) (shdr_widths (v_c64 v)) k.
Definition S_type v i := S_field v i 1.
Definition S_offset v i := S_field v i 4.
Definition S_size v i := S_field v i 5.
Definition S_link v i := S_field v i 6.
Definition S_info v i := S_field v i 7.
(* n section headers lie inside the file *)
Definition table_inside v (n : Z) : Prop := E_shoff v + n * shdr_size v <= v_max v.
(* The number of sections the file declares (gABI: e_shnum, or sh_size of section 0);
   None if section 0 is needed and is not in the file. *)
Definition extended v : bool := (E_shnum v =? 0) && negb (E_shoff v =? 0).
Definition declared_shnum v : option Z :=
  if extended v then (if E_shoff v + shdr_size v <=? v_max v then Some (S_size v 0) else None)
  else Some (E_shnum v).
(* and the number that can be used *)
Definition usable_shnum v : Z :=
  match declared_shnum v with
  | Some n => if E_shoff v + n * shdr_size v <=? v_max v then n else 0
  | None => 0
  end.
Definition S_hdr v i := Shdr (S_type v i) (S_offset v i) (S_size v i) (S_link v i) (S_info v i).

(* ------------------------------------------------------------------ *)
Lemma fld_order : forall le fle b, fld le (Bool.eqb fle le) b = order fle b.
Proof.
  intros le fle b. unfold fld, order, be_value. destruct le, fle; cbn [Bool.eqb]; rewrite ?rev_involutive; reflexivity.
Qed.
Lemma sub_field_order : forall le fle b f, sub_field le (Bool.eqb fle le) b f = order fle (zsub b (fst f) (snd f)).
Proof. intros. apply fld_order. Qed.

Lemma memrd_in : forall c o n, 0 <= o -> o + n <= zlen (c_img c) -> memrd c o n = Ok (zsub (c_img c) o n).
Proof. intros c o n H1 H2. unfold memrd. replace ((0 <=? o) && (o + n <=? zlen (c_img c))) with true by lia. reflexivity. Qed.
Lemma fdrd_in : forall c o n, c_fd c = true -> 0 <= o -> o + n <= zlen (c_img c) -> fdrd c o n = Ok (zsub (c_img c) o n).
Proof. intros c o n F H1 H2. unfold fdrd. rewrite F. cbn [negb]. replace ((0 <=? o) && (o + n <=? zlen (c_img c))) with true by lia. reflexivity. Qed.
Lemma access_in : forall c o n, c_map c = true \/ c_fd c = true -> 0 <= o -> o + n <= zlen (c_img c) ->
  access c o n = Ok (zsub (c_img c) o n).
Proof.
  intros c o n F H1 H2. unfold access. destruct (c_map c) eqn:E; [apply memrd_in; assumption|].
  apply fdrd_in; try assumption. destruct F; [discriminate|assumption].
Qed.

Lemma zsub_zsub : forall (l : bytes) a n b m, 0 <= a -> 0 <= b -> 0 <= m -> b + m <= n -> a + n <= zlen l ->
  zsub (zsub l a n) b m = zsub l (a + b) m.
Proof.
  intros l a n b m A B M H L. unfold zsub. 
  rewrite skipn_firstn_comm, firstn_firstn. 
  replace (Nat.min (Z.to_nat m) (Z.to_nat n - Z.to_nat b)) with (Z.to_nat m) by lia.
  f_equal. replace (Z.to_nat (a + b)) with (Z.to_nat b + Z.to_nat a)%nat by lia.
  clear. revert l. induction (Z.to_nat a) as [|k IH]; intros l; [rewrite Nat.add_0_r; reflexivity|].
  destruct l; [rewrite !skipn_nil; reflexivity|]. rewrite <- plus_n_Sm. cbn [skipn]. apply IH.
Qed.

Lemma order_nonneg : forall fle b, bytes_ok b -> 0 <= order fle b < 256 ^ zlen b.
Proof.
  intros fle b H. unfold order, be_value. destruct fle; [apply le_value_bound, H|].
  rewrite <- (zlen_rev _ b). apply le_value_bound. apply Forall_rev, H.
Qed.
Lemma bytes_ok_zsub : forall b o n, bytes_ok b -> bytes_ok (zsub b o n).
Proof.
  intros b o n H. unfold zsub, bytes_ok in *. apply Forall_forall. intros x X. 
  rewrite Forall_forall in H. apply H. 
  assert (In x (skipn (Z.to_nat o) b)) as I2.
  { rewrite <- (firstn_skipn (Z.to_nat n) (skipn (Z.to_nat o) b)). apply in_or_app. left. exact X. }
  rewrite <- (firstn_skipn (Z.to_nat o) b). apply in_or_app. right. exact I2.
Qed.
Lemma order_zsub : forall fle b o n, bytes_ok b -> 0 <= o -> 0 <= n -> o + n <= zlen b -> 0 <= order fle (zsub b o n) < 256 ^ n.
Proof.
  intros fle b o n B O N H. pose proof (order_nonneg fle (zsub b o n) (bytes_ok_zsub b o n B)) as X.
  rewrite zsub_length in X by lia. exact X.
Qed.

(* The fields read by the code are the specified ones. *)
Definition whole (c : source) (v : view) : Prop :=
  c_img c = v_img v /\ 0 <= v_off v /\ 0 <= v_max v < two63 /\ v_off v + v_max v <= zlen (v_img v) /\ bytes_ok (v_img v) /\
  ehdr_size v <= v_max v.

Definition avail (c : source) : Prop := c_map c = true \/ c_fd c = true.

Lemma ehdr_size_eq : forall v, ehdr_size v = sz_ehdr (v_c64 v).
Proof. intros v. unfold ehdr_size. destruct (v_c64 v); reflexivity. Qed.
Lemma shdr_size_eq : forall v, shdr_size v = sz_shdr (v_c64 v).
Proof. intros v. unfold shdr_size. destruct (v_c64 v); reflexivity. Qed.

Lemma acc_shnum : forall c le v, avail c -> whole c v ->
  access c (v_off v + fst (e_shnum (v_c64 v))) (snd (e_shnum (v_c64 v))) = Ok (zsub (v_img v) (v_off v + total (firstn 12 (ehdr_widths (v_c64 v)))) 2) /\
  fld le (Bool.eqb (v_le v) le) (zsub (v_img v) (v_off v + total (firstn 12 (ehdr_widths (v_c64 v)))) 2) = E_shnum v.
Proof.
  intros c le v A (I & O & M & L & B & H). rewrite ehdr_size_eq in H. split.
  - rewrite access_in; [rewrite I; destruct (v_c64 v); reflexivity|exact A| |]; rewrite ?I; destruct (v_c64 v); cbn in *; lia.
  - rewrite fld_order. unfold E_shnum, field. destruct (v_c64 v); reflexivity.
Qed.
Lemma acc_shoff : forall c le v, avail c -> whole c v ->
  access c (v_off v + fst (e_shoff (v_c64 v))) (snd (e_shoff (v_c64 v))) = Ok (zsub (v_img v) (v_off v + fst (e_shoff (v_c64 v))) (snd (e_shoff (v_c64 v)))) /\
  fld le (Bool.eqb (v_le v) le) (zsub (v_img v) (v_off v + fst (e_shoff (v_c64 v))) (snd (e_shoff (v_c64 v)))) = E_shoff v.
Proof.
  intros c le v A (I & O & M & L & B & H). rewrite ehdr_size_eq in H. split.
  - rewrite access_in; [rewrite I; reflexivity|exact A| |]; rewrite ?I; destruct (v_c64 v); cbn in *; lia.
  - rewrite fld_order. unfold E_shoff, field. destruct (v_c64 v); reflexivity.
Qed.
Lemma shoff_bound : forall c v, whole c v -> 0 <= E_shoff v < (if v_c64 v then two64 else two32).
Proof.
  intros c v (I & O & M & L & B & H). rewrite ehdr_size_eq in H.
  unfold E_shoff, field.
  assert (X : 0 <= order (v_le v) (zsub (v_img v) (v_off v + total (firstn 6 (ehdr_widths (v_c64 v)))) (nth 6 (ehdr_widths (v_c64 v)) 0)) < 256 ^ nth 6 (ehdr_widths (v_c64 v)) 0).
  { apply order_zsub; try assumption; destruct (v_c64 v); cbn in *; lia. }
  destruct (v_c64 v); exact X.
Qed.
Lemma shnum_bound : forall c v, whole c v -> 0 <= E_shnum v < 65536.
Proof.
  intros c v (I & O & M & L & B & H). rewrite ehdr_size_eq in H.
  unfold E_shnum, field. change 65536 with (256 ^ 2).
  replace (nth 12 (ehdr_widths (v_c64 v)) 0) with 2 by (destruct (v_c64 v); reflexivity).
  apply order_zsub; try assumption; destruct (v_c64 v); cbn in *; lia.
Qed.
Lemma ssize_bound : forall c v i, whole c v -> 0 <= i -> E_shoff v + (i + 1) * shdr_size v <= v_max v -> 0 <= S_size v i < (if v_c64 v then two64 else two32).
Proof.
  intros c v i W Hi T. pose proof (shoff_bound c v W) as SO. destruct W as (I & O & M & L & B & H). 
  unfold S_size, S_field, field. rewrite shdr_size_eq in *.
  assert (X : 0 <= order (v_le v) (zsub (v_img v) (v_off v + E_shoff v + i * sz_shdr (v_c64 v) + total (firstn 5 (shdr_widths (v_c64 v)))) (nth 5 (shdr_widths (v_c64 v)) 0)) < 256 ^ nth 5 (shdr_widths (v_c64 v)) 0).
  { apply order_zsub; try assumption; destruct (v_c64 v); cbn in *; lia. }
  destruct (v_c64 v); exact X.
Qed.

(* The number of sections *)
Lemma get_shnum_spec : forall c le v, avail c -> whole c v ->
  get_shnum c le (v_c64 v) (Bool.eqb (v_le v) le) (v_off v) (v_max v) =
  (match declared_shnum v with
   | Some n => if extended v && v_c64 v && (two32 <=? n) then Err ELF_E_INVALID_ELF else Ok (usable_shnum v)
   | None => Ok 0
   end).
Proof.
  intros c le v A W. pose proof (shoff_bound c v W) as SO. pose proof (shnum_bound c v W) as SN.
  destruct (acc_shnum c le v A W) as [A1 A2]. destruct (acc_shoff c le v A W) as [A3 A4].
  unfold get_shnum. rewrite A1. cbn [obind]. rewrite A2, A3. cbn [obind]. rewrite A4.
  unfold usable_shnum, declared_shnum. fold (extended v). rewrite shdr_size_eq.
  pose proof W as (I & O & M & L & B & H).
  destruct (extended v) eqn:EX; cbn [andb].
  - destruct (E_shoff v + sz_shdr (v_c64 v) <=? v_max v) eqn:IN.
    + replace ((v_max v <=? E_shoff v) || (if v_c64 v then v_max v <? u64 (E_shoff v + 64) else v_max v - E_shoff v <? 40)) with false.
      2:{ clear A1 A2 A3 A4. unfold u64. remember (v_c64 v) as c64. destruct c64; cbn in *; [rewrite Z.mod_small by lia|]; lia. }
      rewrite access_in; [|exact A| |]; rewrite ?I; try (clear A1 A2 A3 A4; remember (v_c64 v) as c64; destruct c64; cbn in *; lia). cbn [obind].
      assert (F : fld le (Bool.eqb (v_le v) le) (zsub (v_img v) (v_off v + E_shoff v + fst (sh_size (v_c64 v))) (snd (sh_size (v_c64 v)))) = S_size v 0).
      { rewrite fld_order. unfold S_size, S_field, field. rewrite Z.mul_0_l, Z.add_0_r. destruct (v_c64 v); reflexivity. }
      rewrite F. pose proof (ssize_bound c v 0 W) as SB. rewrite shdr_size_eq in SB. specialize (SB ltac:(lia) ltac:(lia)).
      replace (two32 - 1 <? S_size v 0) with (two32 <=? S_size v 0) by lia.
      destruct (v_c64 v && (two32 <=? S_size v 0)) eqn:BIG; cbn [obind]; [reflexivity|].
      assert (S_size v 0 < two32) by (clear A1 A2 A3 A4; remember (v_c64 v) as c64; destruct c64; cbn [andb] in BIG; lia).
      unfold u64. rewrite Z.mod_small by (unfold sz_shdr; destruct (v_c64 v); lia).
      destruct ((v_max v <? E_shoff v) || (v_max v - E_shoff v <? sz_shdr (v_c64 v) * S_size v 0)) eqn:T1;
        destruct (E_shoff v + S_size v 0 * sz_shdr (v_c64 v) <=? v_max v) eqn:T2; try reflexivity; exfalso; clear A1 A2 A3 A4; unfold sz_shdr in *; remember (v_c64 v) as c64; destruct c64; lia.
    + replace ((v_max v <=? E_shoff v) || (if v_c64 v then v_max v <? u64 (E_shoff v + 64) else v_max v - E_shoff v <? 40)) with true.
      { reflexivity. }
      symmetry. destruct (v_max v <=? E_shoff v) eqn:G; [reflexivity|]. unfold u64.
      clear A1 A2 A3 A4; remember (v_c64 v) as c64; destruct c64; cbn in *; [rewrite Z.mod_small by lia|]; lia.
  - cbn [obind]. unfold u64. rewrite Z.mod_small by (unfold sz_shdr; destruct (v_c64 v); lia).
    destruct ((v_max v <? E_shoff v) || (v_max v - E_shoff v <? sz_shdr (v_c64 v) * E_shnum v)) eqn:T1;
      destruct (E_shoff v + E_shnum v * sz_shdr (v_c64 v) <=? v_max v) eqn:T2; try reflexivity; exfalso; clear A1 A2 A3 A4; unfold sz_shdr in *; remember (v_c64 v) as c64; destruct c64; lia.
Qed.

Lemma fld_true : forall le b, fld le true b = order le b.
Proof. intros [] b; reflexivity. Qed.

Lemma read_shdr_spec : forall c v i, whole c v -> 0 <= i -> E_shoff v + (i + 1) * shdr_size v <= v_max v ->
  read_shdr c (v_le v) true (v_c64 v) (v_off v + E_shoff v + i * sz_shdr (v_c64 v)) = Ok (S_hdr v i).
Proof.
  intros c v i W Hi T. pose proof (shoff_bound c v W) as [SO _]. destruct W as (I & O & M & L & B & H). rewrite shdr_size_eq in T.
  assert (P : 0 <= i * sz_shdr (v_c64 v)) by (unfold sz_shdr; destruct (v_c64 v); lia).
  unfold read_shdr. rewrite memrd_in by (rewrite ?I; lia). cbn [obind]. rewrite I.
  unfold S_hdr, S_type, S_offset, S_size, S_link, S_info, S_field, field, sub_field. rewrite !fld_true. rewrite shdr_size_eq.
  remember (v_off v + E_shoff v + i * sz_shdr (v_c64 v)) as base.
  assert (BL : base + sz_shdr (v_c64 v) <= zlen (v_img v)) by lia. assert (0 <= base) by lia. clear Heqbase P T H. revert BL.
  destruct (v_c64 v); cbn [sz_shdr sh_type sh_offset sh_size sh_link sh_info fst snd firstn total shdr_widths nth]; intros BL;
    do 2 f_equal; f_equal; apply zsub_zsub; lia.
Qed.

(* shndx_index after cnt headers have been looked at *)
Definition shndx_of (v : view) (j i : Z) : bool := (S_type v j =? 18) && (S_link v j =? i).
Fixpoint sx (v : view) (cnt : nat) (i : Z) : Z :=
  match cnt with
  | O => 0
  | S j => let w := if shndx_of v (Z.of_nat j) i then Z.of_nat j else sx v j i in
           if (i =? Z.of_nat j) && (w =? 0) then -1 else w
  end.
Definition raw_of (v : view) (i : Z) : option Z :=
  if (S_offset v i <? v_max v) && (S_size v i <=? v_max v - S_offset v i) then Some (v_off v + S_offset v i) else None.
Definition entry (v : view) (cnt : nat) (i : Z) : scn :=
  if i <? Z.of_nat cnt then Scn i (Some (S_hdr v i)) (raw_of v i) (sx v cnt i) else Scn 0 None None (sx v cnt i).

Lemma nth_error_ext' : forall A (l m : list A), (forall n, nth_error l n = nth_error m n) -> l = m.
Proof.
  induction l as [|x l IH]; intros [|y m] H; [reflexivity|specialize (H O); discriminate|specialize (H O); discriminate|].
  f_equal; [specialize (H O); cbn in H; congruence|]. apply IH. intros n. exact (H (S n)).
Qed.

Lemma znth_ext : forall A (l m : list A), zlen l = zlen m -> (forall i, 0 <= i < zlen l -> znth l i = znth m i) -> l = m.
Proof.
  intros A l m L H. apply nth_error_ext'. intros n. destruct (Nat.lt_ge_cases n (length l)) as [N|N].
  - specialize (H (Z.of_nat n) ltac:(unfold zlen; lia)). unfold znth in H. unfold zlen in *.
    replace ((0 <=? Z.of_nat n) && (Z.of_nat n <? Z.of_nat (length l))) with true in H by lia.
    replace ((0 <=? Z.of_nat n) && (Z.of_nat n <? Z.of_nat (length m))) with true in H by lia.
    rewrite Nat2Z.id in H. exact H.
  - unfold zlen in L. rewrite (proj2 (nth_error_None l n)) by lia. rewrite (proj2 (nth_error_None m n)) by lia. reflexivity.
Qed.

Lemma zlen_set_shndx : forall l i w, zlen (set_shndx l i w) = zlen l.
Proof. intros l i w. unfold set_shndx. destruct (znth l i); [apply zlen_zset|reflexivity]. Qed.
Lemma znth_set_shndx : forall l i w j, znth (set_shndx l i w) j =
  match znth l j with Some x => Some (if i =? j then Scn (n_index x) (n_shdr x) (n_raw x) w else x) | None => None end.
Proof.
  intros l i w j. unfold set_shndx. destruct (Z.eq_dec i j) as [<-|N].
  - rewrite Z.eqb_refl. destruct (znth l i) eqn:E; [|exact E]. apply znth_zset_eq.
    unfold znth in E. destruct ((0 <=? i) && (i <? zlen l)) eqn:X; [lia|discriminate].
  - replace (i =? j) with false by lia. destruct (znth l i).
    + rewrite znth_zset_neq by exact N. destruct (znth l j); reflexivity.
    + destruct (znth l j); reflexivity.
Qed.

Lemma scn_loop_spec : forall c v, whole c v -> forall k cnt l n,
  n = Z.of_nat (cnt + k) -> (0 < n -> E_shoff v + n * shdr_size v <= v_max v) -> zlen l = n ->
  (forall i, 0 <= i < n -> znth l i = Some (entry v cnt i)) ->
  exists l', scn_loop k c (v_le v) (v_c64 v) (v_off v) (E_shoff v) (v_max v) n (Z.of_nat cnt) l = Ok l' /\
    zlen l' = n /\ forall i, 0 <= i < n -> znth l' i = Some (entry v (cnt + k) i).
Proof.
  intros c v W. induction k as [|k IH]; intros cnt l n N T Z0 Z1; cbn [scn_loop].
  { exists l. split; [reflexivity|]. split; [exact Z0|]. rewrite Nat.add_0_r. exact Z1. }
  rewrite read_shdr_spec; [|exact W|lia|].
  2:{ specialize (T ltac:(lia)). rewrite shdr_size_eq in *. unfold sz_shdr in *. destruct (v_c64 v); lia. }
  cbn [obind]. rewrite Z1 by lia.
  change (h_offset (S_hdr v (Z.of_nat cnt))) with (S_offset v (Z.of_nat cnt)).
  change (h_size (S_hdr v (Z.of_nat cnt))) with (S_size v (Z.of_nat cnt)).
  change (h_type (S_hdr v (Z.of_nat cnt))) with (S_type v (Z.of_nat cnt)).
  change (h_link (S_hdr v (Z.of_nat cnt))) with (S_link v (Z.of_nat cnt)).
  fold (raw_of v (Z.of_nat cnt)).
  replace (n_shndx (entry v cnt (Z.of_nat cnt))) with (sx v cnt (Z.of_nat cnt)) by (unfold entry; rewrite Z.ltb_irrefl; reflexivity).
  cbv zeta. set (l1 := zset l _ _).
  set (l2 := if (S_type v (Z.of_nat cnt) =? 18) && (S_link v (Z.of_nat cnt) <? n) then _ else _).
  set (l3 := match znth l2 _ with Some _ => _ | None => _ end).
  replace (Z.of_nat cnt + 1) with (Z.of_nat (S cnt)) by lia.
  replace (cnt + S k)%nat with (S cnt + k)%nat by lia.
  assert (L1 : zlen l1 = n) by (unfold l1; rewrite zlen_zset; exact Z0).
  assert (L2 : zlen l2 = n) by (unfold l2; destruct ((S_type v (Z.of_nat cnt) =? 18) && (S_link v (Z.of_nat cnt) <? n)); rewrite ?zlen_set_shndx; exact L1).
  assert (N1 : forall i, 0 <= i < n -> znth l1 i = Some (if i =? Z.of_nat cnt then Scn (Z.of_nat cnt) (Some (S_hdr v (Z.of_nat cnt))) (raw_of v (Z.of_nat cnt)) (sx v cnt (Z.of_nat cnt)) else entry v cnt i)).
  { intros i Hi. unfold l1. destruct (Z.eqb_spec i (Z.of_nat cnt)) as [->|D].
    - apply znth_zset_eq. lia.
    - rewrite znth_zset_neq by lia. apply Z1, Hi. }
  set (w := fun i => if shndx_of v (Z.of_nat cnt) i then Z.of_nat cnt else sx v cnt i).
  assert (N2 : forall i, 0 <= i < n -> znth l2 i = Some (if i <? Z.of_nat (S cnt) then Scn i (Some (S_hdr v i)) (raw_of v i) (w i) else Scn 0 None None (w i))).
  { intros i Hi. unfold l2. unfold w, shndx_of.
    destruct (S_type v (Z.of_nat cnt) =? 18) eqn:T18; cbn [andb].
    - destruct (S_link v (Z.of_nat cnt) <? n) eqn:LN.
      + rewrite znth_set_shndx, N1 by exact Hi. destruct (Z.eqb_spec i (Z.of_nat cnt)) as [->|D].
        * replace (Z.of_nat cnt <? Z.of_nat (S cnt)) with true by lia. destruct (S_link v (Z.of_nat cnt) =? Z.of_nat cnt); reflexivity.
        * unfold entry. replace (i <? Z.of_nat (S cnt)) with (i <? Z.of_nat cnt) by lia.
          destruct (i <? Z.of_nat cnt); destruct (S_link v (Z.of_nat cnt) =? i); reflexivity.
      + rewrite N1 by exact Hi. replace (S_link v (Z.of_nat cnt) =? i) with false by lia. destruct (Z.eqb_spec i (Z.of_nat cnt)) as [->|D].
        * replace (Z.of_nat cnt <? Z.of_nat (S cnt)) with true by lia. reflexivity.
        * unfold entry. replace (i <? Z.of_nat (S cnt)) with (i <? Z.of_nat cnt) by lia. reflexivity.
    - rewrite N1 by exact Hi. destruct (Z.eqb_spec i (Z.of_nat cnt)) as [->|D].
      + replace (Z.of_nat cnt <? Z.of_nat (S cnt)) with true by lia. reflexivity.
      + unfold entry. replace (i <? Z.of_nat (S cnt)) with (i <? Z.of_nat cnt) by lia. reflexivity. }
  assert (C : znth l2 (Z.of_nat cnt) = Some (Scn (Z.of_nat cnt) (Some (S_hdr v (Z.of_nat cnt))) (raw_of v (Z.of_nat cnt)) (w (Z.of_nat cnt)))).
  { rewrite N2 by lia. replace (Z.of_nat cnt <? Z.of_nat (S cnt)) with true by lia. reflexivity. }
  apply IH; [lia|exact T| |].
  - unfold l3. rewrite C. cbn [n_shndx]. destruct (w (Z.of_nat cnt) =? 0); [rewrite zlen_set_shndx|]; exact L2.
  - intros i Hi. unfold l3. rewrite C. cbn [n_shndx]. unfold entry. cbn [sx]. fold (w i).
    destruct (w (Z.of_nat cnt) =? 0) eqn:W0.
    + rewrite znth_set_shndx, N2 by exact Hi. rewrite (Z.eqb_sym (Z.of_nat cnt) i).
      destruct (Z.eqb_spec i (Z.of_nat cnt)) as [->|D]; cbn [andb]; [|destruct (i <? Z.of_nat (S cnt)); reflexivity].
      rewrite W0. replace (Z.of_nat cnt <? Z.of_nat (S cnt)) with true by lia. reflexivity.
    + rewrite N2 by exact Hi. destruct (Z.eqb_spec i (Z.of_nat cnt)) as [->|D]; cbn [andb]; [rewrite W0|]; reflexivity.
Qed.

(* The file names more sections than the library accepts. *)
Definition too_many (v : view) : bool :=
  match declared_shnum v with Some n => extended v && v_c64 v && (two32 <=? n) | None => false end.

Lemma get_shnum_spec' : forall c le v, avail c -> whole c v ->
  get_shnum c le (v_c64 v) (Bool.eqb (v_le v) le) (v_off v) (v_max v) =
  if too_many v then Err ELF_E_INVALID_ELF else Ok (usable_shnum v).
Proof.
  intros c le v A W. rewrite get_shnum_spec by assumption. unfold too_many, usable_shnum. destruct (declared_shnum v); reflexivity.
Qed.

Lemma usable_inside : forall c v, whole c v -> 0 < usable_shnum v -> E_shoff v + usable_shnum v * shdr_size v <= v_max v.
Proof.
  intros c v W U. unfold usable_shnum in *. destruct (declared_shnum v) as [n|]; [|lia].
  destruct (E_shoff v + n * shdr_size v <=? v_max v) eqn:E; lia.
Qed.
Lemma usable_nonneg : forall c v, whole c v -> 0 <= usable_shnum v.
Proof.
  intros c v W. unfold usable_shnum, declared_shnum. pose proof (shnum_bound c v W).
  destruct (extended v).
  - destruct (E_shoff v + shdr_size v <=? v_max v) eqn:E; [|lia].
    pose proof (ssize_bound c v 0 W ltac:(lia) ltac:(lia)). destruct (E_shoff v + S_size v 0 * shdr_size v <=? v_max v); lia.
  - destruct (E_shoff v + E_shnum v * shdr_size v <=? v_max v); lia.
Qed.
Lemma usable_bound : forall c v, whole c v -> too_many v = false -> usable_shnum v < two32.
Proof.
  intros c v W. unfold too_many, usable_shnum, declared_shnum. pose proof (shnum_bound c v W).
  destruct (extended v).
  - destruct (E_shoff v + shdr_size v <=? v_max v) eqn:E; [|lia].
    pose proof (ssize_bound c v 0 W ltac:(lia) ltac:(lia)). cbn [andb].
    destruct (E_shoff v + S_size v 0 * shdr_size v <=? v_max v); [|lia].
    remember (v_c64 v) as c64. destruct c64; cbn [andb]; lia.
  - destruct (E_shoff v + E_shnum v * shdr_size v <=? v_max v); lia.
Qed.

(* What is known of a descriptor *)
Definition eager_tbl (v : view) (l : list scn) : Prop :=
  zlen l = usable_shnum v /\ forall i, 0 <= i < usable_shnum v -> znth l i = Some (entry v (Z.to_nat (usable_shnum v)) i).
Definition lazy_tbl (v : view) (l : list scn) : Prop :=
  zlen l = usable_shnum v /\ forall i, 0 <= i < usable_shnum v -> znth l i = Some (Scn i None None 0).
Definition descr (c : source) (le al rdmmap : bool) (v : view) (e : elf) : Prop :=
  l_src e = c /\ l_c64 e = v_c64 v /\ l_native e = Bool.eqb (v_le v) le /\ l_start e = v_off v /\ l_max e = v_max v /\
  l_ehdr e = (if c_map c && Bool.eqb (v_le v) le then None else Some (zsub (v_img v) (v_off v) (sz_ehdr (v_c64 v)))) /\
  if c_map c && Bool.eqb (v_le v) le && negb rdmmap && al then eager_tbl v (l_scns e) else lazy_tbl v (l_scns e).

Lemma znth_map_seq : forall (f : nat -> scn) n i, 0 <= i < Z.of_nat n -> znth (map f (seq 0 n)) i = Some (f (Z.to_nat i)).
Proof.
  intros f n i H. unfold znth, zlen. rewrite map_length, seq_length.
  replace ((0 <=? i) && (i <? Z.of_nat n)) with true by lia.
  rewrite (map_nth_error f (Z.to_nat i) (seq 0 n) (d := Z.to_nat i)); [reflexivity|].
  rewrite nth_error_nth' with (d := O) by (rewrite seq_length; lia). f_equal. rewrite seq_nth by lia. reflexivity.
Qed.
Lemma znth_repeat : forall A (x : A) n i, 0 <= i < Z.of_nat n -> znth (repeat x n) i = Some x.
Proof.
  intros A x n i H. unfold znth, zlen. rewrite repeat_length.
  replace ((0 <=? i) && (i <? Z.of_nat n)) with true by lia.
  rewrite nth_error_nth' with (d := x) by (rewrite repeat_length; lia). f_equal. apply nth_repeat.
Qed.

Lemma file_read_spec : forall c le al rdmmap v, avail c -> whole c v ->
  (too_many v = true /\ file_read_elf c le al rdmmap (v_c64 v) (Bool.eqb (v_le v) le) (v_off v) (v_max v) = Err ELF_E_INVALID_ELF) \/
  (too_many v = false /\ exists e, file_read_elf c le al rdmmap (v_c64 v) (Bool.eqb (v_le v) le) (v_off v) (v_max v) = Ok e /\ descr c le al rdmmap v e).
Proof.
  intros c le al rdmmap v A W. unfold file_read_elf. rewrite get_shnum_spec' by assumption.
  destruct (too_many v) eqn:TM; [left; split; reflexivity|right; split; [reflexivity|]].
  pose proof (usable_nonneg c v W) as UN. pose proof (usable_inside c v W) as UI. pose proof (usable_bound c v W TM) as UB.
  pose proof (shoff_bound c v W) as SO.
  destruct (acc_shoff c le v A W) as [A3 A4].
  cbn [obind].
  assert (HD : (if c_map c && Bool.eqb (v_le v) le then Ok None else b <- access c (v_off v) (sz_ehdr (v_c64 v)) ;; Ok (Some b)) =
    Ok (if c_map c && Bool.eqb (v_le v) le then None else Some (zsub (v_img v) (v_off v) (sz_ehdr (v_c64 v))))).
  { destruct (c_map c && Bool.eqb (v_le v) le); [reflexivity|]. destruct W as (I & O & M & L & B & H). rewrite ehdr_size_eq in H.
    rewrite access_in; [rewrite I; reflexivity|exact A|exact O|rewrite I; lia]. }
  rewrite HD. clear HD. cbn [obind]. rewrite A3. cbn [obind]. rewrite A4. clear A3 A4.
  pose proof W as (I & O & M & L & B & H).
  destruct (c_map c && Bool.eqb (v_le v) le && negb rdmmap && al) eqn:EG.
  - assert (NAT : Bool.eqb (v_le v) le = true) by (destruct (Bool.eqb (v_le v) le), (c_map c), rdmmap; try discriminate; reflexivity).
    assert (LE : le = v_le v) by (symmetry; apply Bool.eqb_prop, NAT).
    rewrite shdr_size_eq in UI.
    replace (((0 <? usable_shnum v) && (v_max v <=? E_shoff v)) || (u64 (v_max v - E_shoff v) <? u64 (usable_shnum v * sz_shdr (v_c64 v)))) with false.
    2:{ symmetry. destruct (Z.eq_dec (usable_shnum v) 0) as [->|NZ].
        - rewrite Z.mul_0_l. unfold u64. rewrite (Z.mod_small 0) by lia. pose proof (Z.mod_pos_bound (v_max v - E_shoff v) two64). cbn [Z.ltb Z.compare andb orb]. lia.
        - specialize (UI ltac:(lia)). unfold u64. unfold sz_shdr in *. rewrite !Z.mod_small by (remember (v_c64 v) as c64; destruct c64; lia).
          remember (v_c64 v) as c64; destruct c64; lia. }
    destruct (scn_loop_spec c v W (Z.to_nat (usable_shnum v)) 0 (repeat (Scn 0 None None 0) (Z.to_nat (usable_shnum v))) (usable_shnum v)) as (l & LL & L1 & L2).
    + lia.
    + rewrite shdr_size_eq. exact UI.
    + unfold zlen. rewrite repeat_length. lia.
    + intros i Hi. rewrite znth_repeat by lia. unfold entry. replace (i <? Z.of_nat 0) with false by lia. reflexivity.
    + rewrite <- LE in LL. cbn [Z.of_nat] in LL. rewrite LL. cbn [obind]. eexists. split; [reflexivity|].
      unfold descr. rewrite EG. cbn. split; [reflexivity|]. repeat (split; [reflexivity|]). split; [exact L1|]. exact L2.
  - eexists. split; [reflexivity|]. unfold descr. rewrite EG. cbn [l_src l_c64 l_native l_start l_max l_ehdr l_scns].
    repeat (split; [reflexivity|]). split.
    + unfold zlen. rewrite map_length, seq_length. lia.
    + intros i Hi. rewrite znth_map_seq by lia. rewrite Z2Nat.id by lia. reflexivity.
Qed.

(* ------------------------------------------------------------------ *)
(* Recognising an ELF file (gABI, "ELF Identification") *)
Definition at_byte (img : bytes) (o : Z) : Z := nth (Z.to_nat o) img 0.
Definition elf_ident (img : bytes) (off max : Z) : Prop :=
  16 <= max /\ at_byte img off = 127 /\ at_byte img (off + 1) = 69 /\ at_byte img (off + 2) = 76 /\ at_byte img (off + 3) = 70 /\
  (at_byte img (off + 4) = 1 \/ at_byte img (off + 4) = 2) /\ (at_byte img (off + 5) = 1 \/ at_byte img (off + 5) = 2) /\
  at_byte img (off + 6) = 1.
Definition view_of (img : bytes) (off max : Z) : view :=
  View img off max (at_byte img (off + 4) =? 2) (at_byte img (off + 5) =? 1).

Lemma byte_at_zsub : forall img off n i, 0 <= off -> off + n <= zlen img -> 0 <= i < n -> byte_at (zsub img off n) i = at_byte img (off + i).
Proof.
  intros img off n i O L I. unfold byte_at, at_byte, znth. rewrite zsub_length by lia.
  replace ((0 <=? i) && (i <? n)) with true by lia.
  assert (X : nth_error (zsub img off n) (Z.to_nat i) = nth_error img (Z.to_nat (off + i))).
  { unfold zsub. replace (Z.to_nat (off + i)) with (Z.to_nat off + Z.to_nat i)%nat by lia.
    assert (Y : (Z.to_nat i < Z.to_nat n)%nat) by lia. revert Y. generalize (Z.to_nat n) as nn, (Z.to_nat i) as ii, (Z.to_nat off) as oo. clear.
    intros nn ii oo. revert img. induction oo as [|oo IH]; intros img Y.
    - cbn [skipn Nat.add]. revert nn ii Y. induction img as [|x img IH]; intros [|nn] [|ii] Y; try lia; try reflexivity. cbn. apply IH. lia.
    - destruct img as [|x img]; [cbn; rewrite firstn_nil; destruct ii; reflexivity|]. cbn [skipn Nat.add nth_error]. apply IH, Y. }
  rewrite X. rewrite nth_error_nth' with (d := 0) by (unfold zlen in *; lia). reflexivity.
Qed.

Lemma list4 : forall img off, 0 <= off -> off + 4 <= zlen img ->
  zsub img off 4 = [at_byte img off; at_byte img (off + 1); at_byte img (off + 2); at_byte img (off + 3)].
Proof.
  intros img off O L. apply znth_ext; [rewrite zsub_length by lia; reflexivity|].
  intros i H. rewrite zsub_length in H by lia. 
  pose proof (byte_at_zsub img off 4 i O ltac:(lia) H) as X. unfold byte_at in X.
  destruct (znth (zsub img off 4) i) eqn:E.
  - rewrite X.
    assert (i = 0 \/ i = 1 \/ i = 2 \/ i = 3) as [->|[->|[->| ->]]] by lia; cbn; rewrite ?Z.add_0_r; reflexivity.
  - exfalso. unfold znth in E. rewrite zsub_length in E by lia. replace ((0 <=? i) && (i <? 4)) with true in E by lia.
    apply nth_error_None in E. assert (zlen (zsub img off 4) = 4) by (rewrite zsub_length; lia). unfold zlen in *. lia.
Qed.

Lemma list_eqb_true : forall a b, list_eqb a b = true <-> a = b.
Proof. intros a b. unfold list_eqb. destruct (list_eq_dec Z.eq_dec a b); split; congruence. Qed.

(* What determine_kind makes of it *)
Lemma kind_spec : forall img off len rd, 0 <= off -> 0 <= len -> off + len <= zlen img ->
  (forall n, 0 <= n <= len -> rd 0 n = Ok (zsub img off n)) ->
  exists k, determine_kind rd len = Ok k /\ (k = 3 <-> elf_ident img off len).
Proof.
  intros img off len rd O LN L RD. unfold determine_kind.
  assert (AR : exists a, (if 8 <=? len then b <- rd 0 8 ;; Ok (list_eqb b ARMAG) else Ok false) = Ok a /\ (a = true -> 8 <= len /\ at_byte img off = 33)).
  { destruct (8 <=? len) eqn:E8; [|exists false; split; [reflexivity|discriminate]].
    rewrite RD by lia. cbn [obind]. eexists. split; [reflexivity|]. intros H. apply list_eqb_true in H. split; [lia|].
    pose proof (byte_at_zsub img off 8 0 O ltac:(lia) ltac:(lia)) as X. rewrite H, Z.add_0_r in X. symmetry. exact X. }
  destruct AR as (a & AE & AR). match type of AE with ?x = _ => match goal with |- context [obind ?y _] => change y with x end end. rewrite AE. clear AE. destruct a; cbn [obind].
  { exists 1. split; [reflexivity|]. split; [discriminate|]. intros (_ & X & _). destruct (AR eq_refl). lia. }
  destruct (16 <=? len) eqn:E16.
  2:{ exists 0. split; [reflexivity|]. split; [discriminate|]. intros (X & _). lia. }
  rewrite RD by lia. cbn [obind].
  replace (zsub (zsub img off 16) 0 4) with (zsub img off 4).
  2:{ rewrite zsub_zsub by lia. rewrite Z.add_0_r. reflexivity. }
  rewrite list4 by lia.
  rewrite !byte_at_zsub by (unfold EI_CLASS, EI_DATA, EI_VERSION; lia). unfold EI_CLASS, EI_DATA, EI_VERSION.
  match goal with |- context [if ?b then Ok 3 else Ok 0] => destruct b eqn:EB end.
  - exists 3. split; [reflexivity|]. split; [|reflexivity]. intros _.
    apply andb_prop in EB as [EB V]. apply andb_prop in EB as [EB D]. apply andb_prop in EB as [EB C].
    apply list_eqb_true in EB. unfold ELFMAG in EB. injection EB as E1 E2 E3 E4. unfold elf_ident.
    repeat (split; [lia|]). lia.
  - exists 0. split; [reflexivity|]. split; [discriminate|]. intros (X0 & X1 & X2 & X3 & X4 & X5 & X6 & X7).
    rewrite X1, X2, X3, X4 in EB. unfold list_eqb, ELFMAG in EB.
    destruct (list_eq_dec Z.eq_dec [127; 69; 76; 70] [127; 69; 76; 70]); [|congruence].
    cbn [andb] in EB. lia.
Qed.

Lemma classify_eq : forall c le al rdmmap img off max, c_img c = img -> avail c -> 0 <= off -> 16 <= max -> off + max <= zlen img ->
  classify c le al rdmmap off max =
  (e <- file_read_elf c le al rdmmap (v_c64 (view_of img off max)) (Bool.eqb (v_le (view_of img off max)) le) off max ;; Ok (IsElf e)).
Proof.
  intros c le al rdmmap img off max I A O M L. unfold classify. rewrite access_in; [|exact A|exact O|rewrite I; lia].
  cbn [obind]. rewrite I. rewrite !byte_at_zsub by (unfold EI_CLASS, EI_DATA; lia). reflexivity.
Qed.

Lemma read_mmaped_spec : forall img fd le al rdmmap off max,
  bytes_ok img -> 0 <= off -> 0 <= max < two63 -> off + max <= zlen img ->
  (elf_ident img off max -> ehdr_size (view_of img off max) <= max) ->
  (~ elf_ident img off max /\ (read_mmaped img fd le al rdmmap off max = Ok IsAr \/ read_mmaped img fd le al rdmmap off max = Ok IsOther)) \/
  (elf_ident img off max /\ too_many (view_of img off max) = true /\ read_mmaped img fd le al rdmmap off max = Err ELF_E_INVALID_ELF) \/
  (elf_ident img off max /\ too_many (view_of img off max) = false /\
   exists e, read_mmaped img fd le al rdmmap off max = Ok (IsElf e) /\ descr (Src true fd img) le al rdmmap (view_of img off max) e).
Proof.
  intros img fd le al rdmmap off max B O M L H. unfold read_mmaped.
  destruct (kind_spec img off max (fun o n => memrd (Src true fd img) (off + o) n) O ltac:(lia) L) as (k & K1 & K2).
  { intros n N. rewrite Z.add_0_r. apply memrd_in; cbn; lia. }
  rewrite K1. cbn [obind]. destruct (Z.eqb_spec k 3) as [->|NK].
  - pose proof (proj1 K2 eq_refl) as ID. right. specialize (H ID). pose proof ID as (I16 & _).
    rewrite (classify_eq (Src true fd img) le al rdmmap img off max eq_refl (or_introl eq_refl) O I16 L).
    destruct (file_read_spec (Src true fd img) le al rdmmap (view_of img off max) (or_introl eq_refl)) as [(T & R)|(T & e & R & D)].
    + unfold whole. cbn. repeat (split; [assumption || reflexivity|]). exact H.
    + left. cbn [view_of v_off v_max v_c64 v_le] in R |- *. rewrite R. cbn. split; [exact ID|]. split; [exact T|reflexivity].
    + right. cbn [view_of v_off v_max v_c64 v_le] in R |- *. rewrite R. cbn [obind]. split; [exact ID|]. split; [exact T|]. exists e. split; [reflexivity|exact D].
  - left. split; [intros X; apply NK, K2, X|]. destruct (k =? 1); [left|right]; reflexivity.
Qed.

Lemma read_unmmaped_spec : forall img le off max,
  bytes_ok img -> 0 <= off -> 0 <= max < two63 -> off + max <= zlen img ->
  let ok := elf_ident img off max /\ ehdr_size (view_of img off max) <= max in
  (~ ok /\ (read_unmmaped img le off max = Ok IsAr \/ read_unmmaped img le off max = Ok IsOther)) \/
  (ok /\ too_many (view_of img off max) = true /\ read_unmmaped img le off max = Err ELF_E_INVALID_ELF) \/
  (ok /\ too_many (view_of img off max) = false /\
   exists e, read_unmmaped img le off max = Ok (IsElf e) /\ descr (Src false true img) le true false (view_of img off max) e).
Proof.
  intros img le off max B O M L ok. unfold read_unmmaped.
  set (nread := Z.max 0 (Z.min (Z.min 64 max) (zlen img - off))). assert (NR : nread = Z.min 64 max) by lia.
  destruct (kind_spec img off nread (fun o n => fdrd (Src false true img) (off + o) n) O ltac:(lia) ltac:(lia)) as (k & K1 & K2).
  { intros n N. rewrite Z.add_0_r. apply fdrd_in; cbn; [reflexivity|lia|lia]. }
  assert (IDI : elf_ident img off nread <-> elf_ident img off max) by (unfold elf_ident; split; intros (X & Y); (split; [lia|exact Y])).
  rewrite K1. cbn [obind]. destruct (Z.eqb_spec k 1) as [->|NK1].
  { left. split; [|left; reflexivity]. intros [X _]. apply IDI, K2 in X. discriminate. }
  destruct (Z.eqb_spec k 3) as [->|NK].
  - pose proof (proj1 IDI (proj1 K2 eq_refl)) as ID. pose proof ID as (I16 & _).
    rewrite fdrd_in; [|reflexivity|exact O|cbn; lia]. cbn [obind c_img].
    rewrite byte_at_zsub by (unfold EI_CLASS; lia). unfold EI_CLASS.
    assert (SE : sz_ehdr (at_byte img (off + 4) =? 2) = ehdr_size (view_of img off max)) by (rewrite ehdr_size_eq; reflexivity).
    assert (S64 : ehdr_size (view_of img off max) <= 64) by (rewrite <- SE; destruct (at_byte img (off + 4) =? 2); cbn; lia).
    rewrite SE. destruct (ehdr_size (view_of img off max) <=? nread) eqn:EN.
    + right. assert (H : ehdr_size (view_of img off max) <= max) by lia.
      rewrite (classify_eq (Src false true img) le true false img off max eq_refl (or_intror eq_refl) O I16 L).
      destruct (file_read_spec (Src false true img) le true false (view_of img off max) (or_intror eq_refl)) as [(T & R)|(T & e & R & D)].
      * unfold whole. cbn. repeat (split; [assumption || reflexivity|]). exact H.
      * left. cbn [view_of v_off v_max v_c64 v_le] in R |- *. rewrite R. cbn. split; [split; assumption|]. split; [exact T|reflexivity].
      * right. cbn [view_of v_off v_max v_c64 v_le] in R |- *. rewrite R. cbn [obind]. split; [split; assumption|]. split; [exact T|]. exists e. split; [reflexivity|exact D].
    + left. split; [intros [_ X]; lia|right; reflexivity].
  - left. split; [|right; reflexivity]. intros [X _]. apply NK, K2, IDI, X.
Qed.

(* ------------------------------------------------------------------ *)
(* The extended section index table belonging to a section: the last one linked to it *)
Lemma sx_spec : forall v cnt i, 0 <= i ->
  (exists j, 0 < j < Z.of_nat cnt /\ shndx_of v j i = true /\ (forall j', j < j' < Z.of_nat cnt -> shndx_of v j' i = false) /\ sx v cnt i = j) \/
  ((forall j', 0 < j' < Z.of_nat cnt -> shndx_of v j' i = false) /\ sx v cnt i = (if i <? Z.of_nat cnt then -1 else 0)).
Proof.
  intros v cnt i Hi. induction cnt as [|cnt IH].
  - right. split; [intros; lia|]. cbn [sx Z.of_nat]. replace (i <? 0) with false by lia. reflexivity.
  - cbn [sx]. destruct (shndx_of v (Z.of_nat cnt) i) eqn:E.
    + destruct (Z.eqb_spec (Z.of_nat cnt) 0) as [Z0|NZ].
      * right. split; [intros; lia|]. rewrite Z0. destruct (Z.eqb_spec i 0) as [->|D]; cbn [andb]; [replace (0 <? Z.of_nat (S cnt)) with true by lia; reflexivity|].
        replace (i <? Z.of_nat (S cnt)) with false by lia. reflexivity.
      * left. exists (Z.of_nat cnt). split; [lia|]. split; [exact E|]. split; [intros; lia|]. rewrite andb_false_r. reflexivity.
    + destruct IH as [(j & J1 & J2 & J3 & J4)|(J1 & J2)].
      * left. exists j. split; [lia|]. split; [exact J2|]. split.
        { intros j' J'. destruct (Z.eq_dec j' (Z.of_nat cnt)) as [->|]; [exact E|apply J3; lia]. }
        rewrite J4. replace (j =? 0) with false by lia. rewrite andb_false_r. reflexivity.
      * right. split.
        { intros j' J'. destruct (Z.eq_dec j' (Z.of_nat cnt)) as [->|]; [exact E|apply J1; lia]. }
        rewrite J2. destruct (Z.eqb_spec i (Z.of_nat cnt)) as [->|D]; cbn [andb].
        { rewrite Z.ltb_irrefl. replace (Z.of_nat cnt <? Z.of_nat (S cnt)) with true by lia. reflexivity. }
        { replace (i <? Z.of_nat (S cnt)) with (i <? Z.of_nat cnt) by lia. reflexivity. }
Qed.

(* Fields of the header of a descriptor *)
Lemma ehdr_field_spec : forall c le al rdmmap v e f, whole c v -> avail c -> descr c le al rdmmap v e ->
  0 <= fst f -> 0 <= snd f -> fst f + snd f <= ehdr_size v ->
  ehdr_field le e f = Ok (order (v_le v) (zsub (v_img v) (v_off v + fst f) (snd f))).
Proof.
  intros c le al rdmmap v e f (I & O & M & L & B & H) A (D1 & D2 & D3 & D4 & D5 & D6 & _) F0 F1 F2.
  unfold ehdr_field. rewrite D6, D1, D3, D4. destruct (c_map c && Bool.eqb (v_le v) le) eqn:N.
  - rewrite memrd_in by (rewrite ?I; lia). cbn [obind]. rewrite fld_true. rewrite I.
    apply andb_prop in N as [_ N]. apply Bool.eqb_prop in N. rewrite N. reflexivity.
  - rewrite sub_field_order. rewrite ehdr_size_eq in *. rewrite zsub_zsub by lia. reflexivity.
Qed.
Ltac efield := intros; erewrite ehdr_field_spec by (try eassumption; rewrite ?ehdr_size_eq; match goal with v : view |- _ => destruct (v_c64 v); cbn; lia end);
  match goal with v : view |- _ => unfold E_shoff, E_phoff, E_phnum, E_shstrndx, field; destruct (v_c64 v); reflexivity end.
Lemma ef_shstrndx : forall c le al rdmmap v e, whole c v -> avail c -> descr c le al rdmmap v e -> ehdr_field le e (e_shstrndx (v_c64 v)) = Ok (E_shstrndx v).
Proof. efield. Qed.
Lemma ef_shoff : forall c le al rdmmap v e, whole c v -> avail c -> descr c le al rdmmap v e -> ehdr_field le e (e_shoff (v_c64 v)) = Ok (E_shoff v).
Proof. efield. Qed.
Lemma ef_phoff : forall c le al rdmmap v e, whole c v -> avail c -> descr c le al rdmmap v e -> ehdr_field le e (e_phoff (v_c64 v)) = Ok (E_phoff v).
Proof. efield. Qed.
Lemma ef_phnum : forall c le al rdmmap v e, whole c v -> avail c -> descr c le al rdmmap v e -> ehdr_field le e (e_phnum (v_c64 v)) = Ok (E_phnum v).
Proof. efield. Qed.
