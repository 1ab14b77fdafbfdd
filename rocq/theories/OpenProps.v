(* C14 (opening an ELF image never reads outside it) and C15 (extended numbering).

   Specification: the gABI structures as lists of field widths (OpenProof.v, first
   section: field, E_..., S_..., declared_shnum, usable_shnum), elf_ident for the
   identification bytes, view_of for the class and byte order they select.
   An image in memory is the whole allocation: reading outside it is the outcome UB. *)
From Verif Require Import Base ElfErr OpenModel OpenProof.

Lemma view_whole : forall c img off max, c_img c = img -> bytes_ok img -> 0 <= off -> 0 <= max < two63 -> off + max <= zlen img ->
  ehdr_size (view_of img off max) <= max -> whole c (view_of img off max).
Proof. intros c img off max <- B O M L H. unfold whole. cbn. repeat (split; [assumption || reflexivity|]). exact H. Qed.

(* The table of n headers and everything the descriptor points at lies in the file. *)
Definition scn_inside (v : view) (e : elf) : Prop :=
  zlen (l_scns e) = usable_shnum v /\
  (0 < usable_shnum v -> table_inside v (usable_shnum v)) /\
  forall i, 0 <= i < usable_shnum v ->
    exists x, znth (l_scns e) i = Some x /\ n_index x = i /\
      (forall h, n_shdr x = Some h -> h = S_hdr v i) /\
      (forall o, n_raw x = Some o -> v_off v <= o /\ o + S_size v i <= v_off v + v_max v).

Lemma soffset_nonneg : forall c v i, whole c v -> 0 <= i -> E_shoff v + (i + 1) * shdr_size v <= v_max v -> 0 <= S_offset v i.
Proof.
  intros c v i W Hi T. pose proof (shoff_bound c v W) as SO. destruct W as (I & O & M & L & B & H).
  unfold S_offset, S_field, field. rewrite shdr_size_eq in *.
  assert (X : 0 <= order (v_le v) (zsub (v_img v) (v_off v + E_shoff v + i * sz_shdr (v_c64 v) + total (firstn 4 (shdr_widths (v_c64 v)))) (nth 4 (shdr_widths (v_c64 v)) 0)) < 256 ^ nth 4 (shdr_widths (v_c64 v)) 0).
  { apply order_zsub; try assumption; destruct (v_c64 v); cbn in *; lia. }
  apply X.
Qed.

Lemma descr_inside : forall c le al rdmmap v e, whole c v -> descr c le al rdmmap v e -> scn_inside v e.
Proof.
  intros c le al rdmmap v e W (_ & _ & _ & _ & _ & _ & T). unfold scn_inside.
  destruct (c_map c && Bool.eqb (v_le v) le && negb rdmmap && al).
  - destruct T as [T1 T2]. split; [exact T1|]. split; [apply (usable_inside c), W|]. intros i Hi. rewrite T2 by exact Hi.
    eexists. split; [reflexivity|]. unfold entry. replace (i <? Z.of_nat (Z.to_nat (usable_shnum v))) with true by lia.
    cbn [n_index n_shdr n_raw]. split; [reflexivity|]. split; [intros h X; congruence|].
    unfold raw_of. intros o. destruct ((S_offset v i <? v_max v) && (S_size v i <=? v_max v - S_offset v i)) eqn:E; [|discriminate].
    intros X. injection X as <-.
    assert (0 <= S_offset v i).
    { apply (soffset_nonneg c); [exact W|lia|]. pose proof (usable_inside c v W ltac:(lia)) as UI. rewrite shdr_size_eq in *. unfold sz_shdr in *. destruct (v_c64 v); lia. }
    lia.
  - destruct T as [T1 T2]. split; [exact T1|]. split; [apply (usable_inside c), W|]. intros i Hi. rewrite T2 by exact Hi.
    eexists. split; [reflexivity|]. cbn. split; [reflexivity|]. split; discriminate.
Qed.

(* ------------------------------------------------------------------ *)
(* Example images *)
Definition fields (ws vs : list Z) : bytes := concat (map (fun p => le_bytes (Z.to_nat (fst p)) (snd p)) (combine ws vs)).
Definition ident (class data : Z) : bytes := [127; 69; 76; 70; class; data; 1; 0; 0; 0; 0; 0; 0; 0; 0; 0].
(* 64-bit little endian: header, two program headers' room, n section headers *)
Definition ehdr64 (phoff shoff phnum shnum shstrndx : Z) : bytes :=
  ident 2 1 ++ fields (tl (ehdr_widths true)) [1; 62; 1; 0; phoff; shoff; 0; 64; 56; phnum; 64; shnum; shstrndx].
Definition shdr64 (type offset size link info : Z) : bytes :=
  fields (shdr_widths true) [0; type; 0; 0; offset; size; link; info; 0; 0].
(* three sections counted in section 0; section 2 is the index table of section 1 *)
Definition img_ext : bytes :=
  ehdr64 0 64 65535 0 65535 ++ shdr64 0 0 3 2 7 ++ shdr64 2 64 24 0 0 ++ shdr64 18 100 4 1 0.

(* C14: opening a mapped file.  Missing for the full property: the ELF header itself
   must be inside the image; see C14_open_safe_refuted. *)
Theorem C14_open_safe_partial : forall img fd le al rdmmap off max,
  bytes_ok img -> 0 <= off -> 0 <= max < two63 -> off + max <= zlen img ->
  (elf_ident img off max -> ehdr_size (view_of img off max) <= max) ->
  let r := read_mmaped img fd le al rdmmap off max in
  (~ elf_ident img off max -> r = Ok IsAr \/ r = Ok IsOther) /\
  (elf_ident img off max -> r = Err ELF_E_INVALID_ELF \/ exists e, r = Ok (IsElf e) /\ scn_inside (view_of img off max) e).
Proof.
  intros img fd le al rdmmap off max B O M L H r. unfold r.
  destruct (read_mmaped_spec img fd le al rdmmap off max B O M L H) as [(N & R)|[(I & T & R)|(I & T & e & R & D)]].
  - split; [intros _; exact R|contradiction].
  - split; [contradiction|]. intros _. left. exact R.
  - split; [contradiction|]. intros _. right. exists e. split; [exact R|]. eapply descr_inside; [|exact D].
    apply view_whole; try assumption; [reflexivity|]. apply H, I.
Qed.
Print Assumptions C14_open_safe_partial.

(* An image of 16 to 51 (63) bytes which starts like an ELF file: the header is read beyond its end. *)
Theorem C14_open_safe_refuted : exists img, bytes_ok img /\ zlen img = 16 /\
  forall le al, elf_memory img le al = UB.
Proof.
  exists (ident 2 1). split; [unfold ident; repeat constructor; unfold is_u8; lia|]. split; [reflexivity|].
  intros [] []; vm_compute; reflexivity.
Qed.
Print Assumptions C14_open_safe_refuted.

(* The same, exactly: refused if and only if section 0 announces 2^32 or more sections;
   otherwise as many sections as are usable, and every header and contents as they are
   in the file.  Mapped in the byte order of the host, table aligned. *)
Theorem C14_sections_decoded : forall img fd le off max,
  bytes_ok img -> 0 <= off -> 0 <= max < two63 -> off + max <= zlen img ->
  elf_ident img off max -> let v := view_of img off max in ehdr_size v <= max -> v_le v = le ->
  let r := read_mmaped img fd le true false off max in
  (r = Err ELF_E_INVALID_ELF <-> (exists n, declared_shnum v = Some n /\ extended v = true /\ v_c64 v = true /\ two32 <= n)) /\
  (forall e, r = Ok (IsElf e) ->
     zlen (l_scns e) = usable_shnum v /\
     forall i, 0 <= i < usable_shnum v ->
       exists x, znth (l_scns e) i = Some x /\ n_index x = i /\ n_shdr x = Some (S_hdr v i) /\
         n_raw x = (if (S_offset v i <? max) && (S_offset v i + S_size v i <=? max) then Some (off + S_offset v i) else None)).
Proof.
  intros img fd le off max B O M L I v H N r. unfold r.
  destruct (read_mmaped_spec img fd le true false off max B O M L (fun _ => H)) as [(X & R)|[(_ & T & R)|(_ & T & e & R & D)]]; [contradiction| |]; fold v in T; rewrite R.
  - split; [|discriminate]. split; [intros _|reflexivity]. unfold too_many in T. destruct (declared_shnum v) as [n|] eqn:DS; [|discriminate].
    exists n. split; [reflexivity|]. destruct (extended v), (v_c64 v); cbn [andb] in T; try discriminate. split; [reflexivity|]. split; [reflexivity|lia].
  - split.
    + split; [discriminate|]. intros (n & E1 & E2 & E3 & E4). unfold too_many in T. rewrite E1, E2, E3 in T. cbn [andb] in T. lia.
    + intros e' X. injection X as <-. destruct D as (_ & _ & _ & _ & _ & _ & D). fold v in D. rewrite N in D. cbn [c_map] in D. rewrite Bool.eqb_reflx in D. cbn [andb negb] in D.
      destruct D as [D1 D2]. split; [exact D1|]. intros i Hi. rewrite D2 by exact Hi. eexists. split; [reflexivity|].
      unfold entry. replace (i <? Z.of_nat (Z.to_nat (usable_shnum v))) with true by lia. cbn [n_index n_shdr n_raw].
      split; [reflexivity|]. split; [reflexivity|]. unfold raw_of. cbn [v view_of v_max v_off].
      replace (S_size v i <=? max - S_offset v i) with (S_offset v i + S_size v i <=? max) by lia. reflexivity.
Qed.
Print Assumptions C14_sections_decoded.

(* The extended section index table recorded for section i is the last section of type
   SHT_SYMTAB_SHNDX (18) linked to it; -1 if there is none. *)
Theorem C14_shndx : forall img fd le off max e,
  bytes_ok img -> 0 <= off -> 0 <= max < two63 -> off + max <= zlen img ->
  elf_ident img off max -> let v := view_of img off max in ehdr_size v <= max -> v_le v = le ->
  read_mmaped img fd le true false off max = Ok (IsElf e) ->
  forall i, 0 <= i < usable_shnum v -> exists x, znth (l_scns e) i = Some x /\
    ((n_shndx x = -1 /\ forall j, 0 < j < usable_shnum v -> ~ (S_type v j = 18 /\ S_link v j = i)) \/
     (0 < n_shndx x < usable_shnum v /\ S_type v (n_shndx x) = 18 /\ S_link v (n_shndx x) = i /\
      forall j, n_shndx x < j < usable_shnum v -> ~ (S_type v j = 18 /\ S_link v j = i))).
Proof.
  intros img fd le off max e B O M L I v H N R i Hi.
  destruct (read_mmaped_spec img fd le true false off max B O M L (fun _ => H)) as [(X & _)|[(_ & T & R')|(_ & T & e' & R' & D)]]; [contradiction|congruence|].
  assert (e' = e) by congruence. subst e'. destruct D as (_ & _ & _ & _ & _ & _ & D). fold v in D. rewrite N in D. cbn [c_map] in D. rewrite Bool.eqb_reflx in D. cbn [andb negb] in D.
  destruct D as [D1 D2]. rewrite D2 by exact Hi. eexists. split; [reflexivity|].
  unfold entry. replace (i <? Z.of_nat (Z.to_nat (usable_shnum v))) with true by lia. cbn [n_shndx].
  destruct (sx_spec v (Z.to_nat (usable_shnum v)) i ltac:(lia)) as [(j & J1 & J2 & J3 & J4)|(J1 & J2)].
  - right. rewrite J4. unfold shndx_of in *. split; [lia|]. split; [lia|]. split; [lia|]. intros j' Hj [Y1 Y2]. specialize (J3 j' ltac:(lia)). lia.
  - left. rewrite J2. replace (i <? Z.of_nat (Z.to_nat (usable_shnum v))) with true by lia. split; [reflexivity|].
    unfold shndx_of in J1. intros j Hj [Y1 Y2]. specialize (J1 j ltac:(lia)). lia.
Qed.
Print Assumptions C14_shndx.

Example C14_nonvacuous :
  bytes_ok img_ext /\ elf_ident img_ext 0 256 /\ zlen img_ext = 256 /\ ehdr_size (view_of img_ext 0 256) <= 256 /\
  usable_shnum (view_of img_ext 0 256) = 3 /\
  match read_mmaped img_ext false true true false 0 256 with
  | Ok (IsElf e) => map n_shndx (l_scns e) = [-1; 2; -1] /\ map n_raw (l_scns e) = [Some 0; Some 64; Some 100]
  | _ => False
  end.
Proof.
  split; [|vm_compute; repeat split; auto; discriminate].
  apply Forall_forall. intros x X. assert (forallb (fun b => (0 <=? b) && (b <? 256)) img_ext = true) as F by (vm_compute; reflexivity).
  rewrite forallb_forall in F. specialize (F x X). unfold is_u8. lia.
Qed.

(* C14 for elf_memory and for reading through a file descriptor *)
Corollary C14_memory_partial : forall img le al, bytes_ok img -> zlen img < two63 ->
  (elf_ident img 0 (zlen img) -> ehdr_size (view_of img 0 (zlen img)) <= zlen img) ->
  elf_memory img le al <> UB /\ elf_memory img le al <> Fuel /\
  forall e, elf_memory img le al = Ok (IsElf e) -> scn_inside (view_of img 0 (zlen img)) e.
Proof.
  intros img le al B Z H. unfold elf_memory.
  pose proof (zlen_nonneg _ img) as ZN.
  destruct (read_mmaped_spec img false le al false 0 (zlen img) B ltac:(lia) ltac:(lia) ltac:(lia) H) as [(N & [R|R])|[(I & T & R)|(I & T & e & R & D)]]; rewrite R;
    (split; [discriminate|]; split; [discriminate|]; intros e' X; try discriminate).
  injection X as <-. eapply descr_inside; [|exact D]. apply view_whole; try assumption; [reflexivity|lia|lia|lia|apply H, I].
Qed.
Print Assumptions C14_memory_partial.

Theorem C14_open_fd : forall img le off max,
  bytes_ok img -> 0 <= off -> 0 <= max < two63 -> off + max <= zlen img ->
  let r := read_unmmaped img le off max in let v := view_of img off max in
  (r = Ok IsAr \/ r = Ok IsOther) /\ ~ (elf_ident img off max /\ ehdr_size v <= max) \/
  (elf_ident img off max /\ ehdr_size v <= max) /\ (r = Err ELF_E_INVALID_ELF \/ exists e, r = Ok (IsElf e) /\ scn_inside v e).
Proof.
  intros img le off max B O M L r v. unfold r, v.
  destruct (read_unmmaped_spec img le off max B O M L) as [(N & R)|[(I & T & R)|(I & T & e & R & D)]].
  - left. split; [exact R|exact N].
  - right. split; [exact I|left; exact R].
  - right. split; [exact I|right]. exists e. split; [exact R|]. eapply descr_inside; [|exact D]. apply view_whole; try assumption; [reflexivity|apply I].
Qed.
Print Assumptions C14_open_fd.
Example C14_open_fd_nonvacuous :
  match read_unmmaped img_ext false 0 256 with Ok (IsElf e) => zlen (l_scns e) = 3 | _ => False end.
Proof. vm_compute. reflexivity. Qed.

(* ------------------------------------------------------------------ *)
(* C15.  How a descriptor comes about: mapped or in memory, or read through fd. *)
Inductive opens (img : bytes) (le al rdmmap : bool) (off max : Z) (e : elf) : bool -> bool -> Prop :=
| opens_map : forall fd, read_mmaped img fd le al rdmmap off max = Ok (IsElf e) -> opens img le al rdmmap off max e true fd
| opens_fd : al = true -> rdmmap = false -> read_unmmaped img le off max = Ok (IsElf e) -> opens img le al rdmmap off max e false true.

(* a file in an image, its ELF header inside *)
Definition good (img : bytes) (off max : Z) : Prop :=
  bytes_ok img /\ 0 <= off /\ 0 <= max < two63 /\ off + max <= zlen img /\ ehdr_size (view_of img off max) <= max.

Lemma opens_descr : forall img le al rdmmap off max e m fd, good img off max -> opens img le al rdmmap off max e m fd ->
  let c := Src m fd img in whole c (view_of img off max) /\ avail c /\ descr c le al rdmmap (view_of img off max) e /\ too_many (view_of img off max) = false.
Proof.
  intros img le al rdmmap off max e m fd (B & O & M & L & H) X.
  destruct X as [fd R| -> -> R]; (split; [apply view_whole; try assumption; reflexivity|]).
  - split; [left; reflexivity|]. destruct (read_mmaped_spec img fd le al rdmmap off max B O M L (fun _ => H)) as [(_ & [R'|R'])|[(_ & _ & R')|(_ & T & e' & R' & D)]]; try congruence.
    assert (e' = e) by congruence. subst. split; assumption.
  - split; [right; reflexivity|]. destruct (read_unmmaped_spec img le off max B O M L) as [(_ & [R'|R'])|[(_ & _ & R')|(_ & T & e' & R' & D)]]; try congruence.
    assert (e' = e) by congruence. subst. split; assumption.
Qed.

Lemma znth_last_index : forall c le al rdmmap v e, whole c v -> descr c le al rdmmap v e -> 0 < usable_shnum v ->
  exists x, znth (l_scns e) (zlen (l_scns e) - 1) = Some x /\ n_index x = usable_shnum v - 1.
Proof.
  intros c le al rdmmap v e W D U. destruct (descr_inside _ _ _ _ _ _ W D) as (D1 & _ & D2). rewrite D1.
  destruct (D2 (usable_shnum v - 1) ltac:(lia)) as (x & X1 & X2 & _). exists x. split; assumption.
Qed.

(* The section count: e_shnum, or section 0's sh_size when e_shnum is 0 and there is a
   section header table; 0 when the table does not fit in the file. *)
Theorem C15_shdrnum : forall img le al rdmmap off max e m fd, good img off max -> opens img le al rdmmap off max e m fd ->
  elf_getshdrnum e = Ok (usable_shnum (view_of img off max)).
Proof.
  intros img le al rdmmap off max e m fd G OP. destruct (opens_descr _ _ _ _ _ _ _ _ _ G OP) as (W & A & D & _).
  set (v := view_of img off max) in *. pose proof (usable_nonneg _ v W) as UN. unfold elf_getshdrnum.
  destruct (Z.eq_dec (usable_shnum v) 0) as [E0|NZ].
  - destruct (descr_inside _ _ _ _ _ _ W D) as (D1 & _). rewrite E0 in *. unfold znth. rewrite D1. cbn. reflexivity.
  - destruct (znth_last_index _ _ _ _ _ _ W D ltac:(lia)) as (x & -> & ->). f_equal. lia.
Qed.
Print Assumptions C15_shdrnum.

(* gABI: the section name string table index *)
Definition spec_shstrndx (v : view) : outcome Z :=
  if E_shstrndx v =? 65535 then if usable_shnum v =? 0 then Err ELF_E_INVALID_SECTION_HEADER else Ok (S_link v 0)
  else Ok (E_shstrndx v).

Lemma scn0 : forall c le al rdmmap v e, whole c v -> descr c le al rdmmap v e -> 0 < usable_shnum v ->
  exists x t, l_scns e = x :: t /\ znth (l_scns e) 0 = Some x.
Proof.
  intros c le al rdmmap v e W D U. destruct (descr_inside _ _ _ _ _ _ W D) as (D1 & _).
  destruct (l_scns e) as [|x t]; [cbn in D1; lia|]. exists x, t. split; reflexivity.
Qed.

Lemma slink0_fd : forall c v, whole c v -> 0 < usable_shnum v -> v_off v = 0 ->
  order (v_le v) (zsub (zsub (v_img v) (E_shoff v) (sz_shdr (v_c64 v))) (fst (sh_link (v_c64 v))) (snd (sh_link (v_c64 v)))) = S_link v 0.
Proof.
  intros c v W U O0. pose proof (usable_inside _ _ W U) as UI. pose proof (shoff_bound _ _ W) as [SO _]. destruct W as (I & O & M & L & B & H).
  unfold S_link, S_field, field. rewrite shdr_size_eq in *. rewrite O0, Z.mul_0_l, Z.add_0_l, Z.add_0_r in *.
  assert (BL : E_shoff v + sz_shdr (v_c64 v) <= zlen (v_img v)) by (unfold sz_shdr in *; destruct (v_c64 v); lia).
  destruct (v_c64 v); rewrite zsub_zsub by (cbn in *; lia); reflexivity.
Qed.

(* C15, string table index: for a mapped file in host byte order, or when the file can be
   read through its descriptor and starts at offset 0.  Missing: a memory image in the
   other byte order, and an archive member, see below. *)
Theorem C15_shstrndx_partial : forall img le al rdmmap off max e m fd, good img off max -> opens img le al rdmmap off max e m fd ->
  (m = true /\ v_le (view_of img off max) = le /\ al = true) \/ (fd = true /\ off = 0) ->
  elf_getshdrstrndx le al e = spec_shstrndx (view_of img off max).
Proof.
  intros img le al rdmmap off max e m fd G OP CASE. destruct (opens_descr _ _ _ _ _ _ _ _ _ G OP) as (W & A & D & _).
  assert (VO : v_off (view_of img off max) = off) by reflexivity. assert (VI : v_img (view_of img off max) = img) by reflexivity.
  set (v := view_of img off max) in *. pose proof (usable_nonneg _ v W) as UN.
  unfold elf_getshdrstrndx, spec_shstrndx.
  pose proof D as (D1 & D2 & D3 & D4 & D5 & D6 & D7). rewrite D2.
  rewrite (ef_shstrndx _ _ _ _ _ _ W A D). cbn [obind]. unfold SHN_XINDEX.
  destruct (E_shstrndx v =? 65535); [|reflexivity].
  destruct (Z.eqb_spec (usable_shnum v) 0) as [U0|NU].
  { destruct (descr_inside _ _ _ _ _ _ W D) as (Z0 & _). rewrite U0 in Z0. destruct (l_scns e); [reflexivity|]. rewrite zlen_cons in Z0. pose proof (zlen_nonneg _ l). lia. }
  assert (U : 0 < usable_shnum v) by lia.
  destruct (scn0 _ _ _ _ _ _ W D U) as (x & t & XT & X0). rewrite XT.
  rewrite (ef_shoff _ _ _ _ _ _ W A D), D1, D3, D4, D5.
  pose proof (usable_inside _ _ W U) as UI. pose proof (shoff_bound _ _ W) as [SO _].
  assert (T1 : E_shoff v + sz_shdr (v_c64 v) <= v_max v) by (rewrite shdr_size_eq in UI; unfold sz_shdr in *; destruct (v_c64 v); lia).
  assert (ML : v_max v < two63 /\ v_off v + v_max v <= zlen (v_img v)) by (destruct W as (_ & _ & ? & ? & _); split; [lia|assumption]).
  destruct (n_shdr x) as [h|] eqn:NS.
  { destruct (c_map (Src m fd img) && Bool.eqb (v_le v) le && negb rdmmap && al).
    - destruct D7 as [_ D7]. rewrite D7 in X0 by lia. injection X0 as <-. unfold entry in NS. replace (0 <? Z.of_nat (Z.to_nat (usable_shnum v))) with true in NS by lia.
      cbn [n_shdr] in NS. injection NS as <-. reflexivity.
    - destruct D7 as [_ D7]. rewrite D7 in X0 by lia. injection X0 as <-. discriminate. }
  cbn [obind c_map c_img].
  assert (FDP : fd = true -> off = 0 -> (b <- fdrd (Src m fd img) (E_shoff v) (sz_shdr (v_c64 v)) ;; Ok (sub_field le (Bool.eqb (v_le v) le) b (sh_link (v_c64 v)))) = Ok (S_link v 0)).
  { intros -> Q. rewrite fdrd_in; [|reflexivity|lia|cbn [c_img]; rewrite VI in ML; lia]. cbn [obind c_img]. rewrite sub_field_order. f_equal.
    rewrite <- VI. apply (slink0_fd _ _ W U). rewrite VO. exact Q. }
  destruct (m && Bool.eqb (v_le v) le && al) eqn:CM.
  - apply andb_prop in CM as [CM _]. apply andb_prop in CM as [_ CM]. apply Bool.eqb_prop in CM. rewrite <- CM.
    replace (u64 (v_max v - E_shoff v) <? sz_shdr (v_c64 v)) with false.
    2:{ assert (0 < sz_shdr (v_c64 v)) by (destruct (v_c64 v); cbn; lia). unfold u64. rewrite Z.mod_small by lia. lia. }
    replace (v_off v + E_shoff v) with (v_off v + E_shoff v + 0 * sz_shdr (v_c64 v)) by lia.
    rewrite (read_shdr_spec _ v 0 W); [reflexivity|lia|rewrite shdr_size_eq; lia].
  - destruct CASE as [(-> & CE & ->)|[F0 F1]]; [|apply FDP; assumption].
    rewrite CE in CM. rewrite Bool.eqb_reflx in CM. discriminate.
Qed.
Print Assumptions C15_shstrndx_partial.

(* A big endian image in memory on a little endian host, and an archive member at
   offset 8 of a file read in the other byte order: the header is looked for in the
   wrong place. *)
Definition be_fields (ws vs : list Z) : bytes := concat (map (fun p => be_bytes (Z.to_nat (fst p)) (snd p)) (combine ws vs)).
Definition img_be : bytes :=
  ident 2 2 ++ be_fields (tl (ehdr_widths true)) [1; 62; 1; 0; 0; 64; 0; 64; 56; 0; 64; 0; 65535] ++
  be_fields (shdr_widths true) [0; 0; 0; 0; 0; 2; 1; 0; 0; 0] ++ be_fields (shdr_widths true) [0; 3; 0; 0; 64; 8; 0; 0; 0; 0].
Definition byte_list (l : bytes) : bool := forallb (fun b => (0 <=? b) && (b <? 256)) l.
Lemma byte_list_ok : forall l, byte_list l = true -> bytes_ok l.
Proof. intros l H. apply Forall_forall. intros x X. unfold byte_list in H. rewrite forallb_forall in H. specialize (H x X). unfold is_u8. lia. Qed.

(* An image in memory in the other byte order: elf_getshdrstrndx fails. *)
Theorem C15_shstrndx_memory_refuted : exists img e, good img 0 (zlen img) /\ elf_memory img true true = Ok (IsElf e) /\
  spec_shstrndx (view_of img 0 (zlen img)) = Ok 1 /\ elf_getshdrstrndx true true e = Err ELF_E_INVALID_FILE.
Proof.
  exists img_be. destruct (elf_memory img_be true true) as [[e| |]| | |] eqn:E; try (vm_compute in E; discriminate).
  exists e. split; [split; [apply byte_list_ok; vm_compute; reflexivity|vm_compute; repeat split; discriminate]|].
  split; [reflexivity|]. split; [vm_compute; reflexivity|].
  vm_compute in E. injection E as <-. vm_compute. reflexivity.
Qed.
Print Assumptions C15_shstrndx_memory_refuted.

(* A member of an archive: section 0 is looked for at the wrong place of the archive. *)
Theorem C15_shstrndx_member_refuted : exists img off max e, good img off max /\ read_unmmaped img true off max = Ok (IsElf e) /\
  spec_shstrndx (view_of img off max) = Ok 1 /\ elf_getshdrstrndx true true e = Ok 0.
Proof.
  exists (repeat 0 8 ++ img_be), 8, 192. destruct (read_unmmaped (repeat 0 8 ++ img_be) true 8 192) as [[e| |]| | |] eqn:E; try (vm_compute in E; discriminate).
  exists e. split; [split; [apply byte_list_ok; vm_compute; reflexivity|vm_compute; repeat split; discriminate]|].
  split; [reflexivity|]. split; [vm_compute; reflexivity|].
  vm_compute in E. injection E as <-. vm_compute. reflexivity.
Qed.
Print Assumptions C15_shstrndx_member_refuted.

(* The number of program headers: e_phnum, or section 0's sh_info; 0 without a table;
   an error when the table starts outside; never more than fit into the file. *)
Definition declared_phnum (v : view) : Z :=
  if (E_phnum v =? 65535) && (0 <? usable_shnum v) then S_info v 0 else E_phnum v.
Definition spec_phdrnum (v : view) : outcome Z :=
  if E_phoff v =? 0 then Ok 0
  else if v_max v <=? E_phoff v then Err ELF_E_INVALID_DATA
  else Ok (Z.min (declared_phnum v) ((v_max v - E_phoff v) / phdr_size (v_c64 v))).

Lemma phoff_nonneg : forall c v, whole c v -> 0 <= E_phoff v.
Proof.
  intros c v (I & O & M & L & B & H). rewrite ehdr_size_eq in H. unfold E_phoff, field.
  apply order_zsub; try assumption; destruct (v_c64 v); cbn in *; lia.
Qed.
Lemma phnum_bound : forall c v, whole c v -> 0 <= E_phnum v < 65536.
Proof.
  intros c v (I & O & M & L & B & H). rewrite ehdr_size_eq in H. unfold E_phnum, field.
  change 65536 with (256 ^ 2). replace (nth 10 (ehdr_widths (v_c64 v)) 0) with 2 by (destruct (v_c64 v); reflexivity).
  apply order_zsub; try assumption; destruct (v_c64 v); cbn in *; lia.
Qed.
Lemma sinfo0_bound : forall c v, whole c v -> 0 < usable_shnum v -> 0 <= S_info v 0 < two32.
Proof.
  intros c v W U. pose proof (usable_inside _ _ W U) as UI. pose proof (shoff_bound c v W) as SO. destruct W as (I & O & M & L & B & H).
  unfold S_info, S_field, field. rewrite shdr_size_eq in *. change two32 with (256 ^ 4).
  replace (nth 7 (shdr_widths (v_c64 v)) 0) with 4 by (destruct (v_c64 v); reflexivity).
  apply order_zsub; try assumption; destruct (v_c64 v); cbn in *; lia.
Qed.

Definition clip_phnum (v : view) (n : Z) : outcome Z :=
  if E_phoff v =? 0 then Ok 0
  else if v_max v <=? E_phoff v then Err ELF_E_INVALID_DATA
  else Ok (Z.min n ((v_max v - E_phoff v) / phdr_size (v_c64 v))).
(* What the code counts before it looks at the size of the file *)
Lemma getphdrnum_spec : forall c le al rdmmap v e, whole c v -> avail c -> descr c le al rdmmap v e ->
  elf_getphdrnum le e = clip_phnum v
    (if (E_phnum v =? 65535) && (0 <? usable_shnum v) && (c_map c && Bool.eqb (v_le v) le && negb rdmmap && al) then S_info v 0 else E_phnum v).
Proof.
  intros c le al rdmmap v e W A D. pose proof D as (D1 & D2 & D3 & D4 & D5 & D6 & D7).
  pose proof (usable_nonneg _ v W) as UN. pose proof (phoff_nonneg _ _ W) as PO. pose proof (phnum_bound _ _ W) as PN. pose proof (sinfo0_bound _ _ W) as SI.
  unfold elf_getphdrnum, getphdrnum_rdlock. rewrite D2, D5. rewrite (ef_phnum _ _ _ _ _ _ W A D). cbn [obind]. unfold PN_XNUM.
  set (eager := c_map c && Bool.eqb (v_le v) le && negb rdmmap && al) in *.
  set (n := if (E_phnum v =? 65535) && (0 <? usable_shnum v) && eager then S_info v 0 else E_phnum v).
  match goal with |- obind ?q _ = _ => assert (Q : q = Ok n) end.
  { unfold n. destruct (E_phnum v =? 65535); [|reflexivity]. cbn [andb].
    destruct (Z.eq_dec (usable_shnum v) 0) as [U0|NU].
    - rewrite U0. cbn [Z.ltb Z.compare andb]. destruct (descr_inside _ _ _ _ _ _ W D) as (Z0 & _). rewrite U0 in Z0.
      destruct (l_scns e); [reflexivity|]. rewrite zlen_cons in Z0. pose proof (zlen_nonneg _ l). lia.
    - replace (0 <? usable_shnum v) with true by lia. cbn [andb]. destruct (scn0 _ _ _ _ _ _ W D ltac:(lia)) as (x & t & XT & X0). rewrite XT.
      destruct eager; destruct D7 as [_ D7]; rewrite D7 in X0 by lia; injection X0 as <-; [|reflexivity].
      unfold entry. replace (0 <? Z.of_nat (Z.to_nat (usable_shnum v))) with true by lia. reflexivity. }
  assert (NB : 0 <= n < two32).
  { unfold n. destruct ((E_phnum v =? 65535) && (0 <? usable_shnum v) && eager) eqn:EB; [|lia]. apply SI. destruct (E_phnum v =? 65535); [|discriminate]. cbn [andb] in EB. lia. }
  rewrite Q. cbn [obind]. rewrite (ef_phoff _ _ _ _ _ _ W A D). cbn [obind]. unfold clip_phnum.
  destruct (E_phoff v =? 0); [reflexivity|]. destruct (v_max v <=? E_phoff v) eqn:EP; [reflexivity|].
  assert (PS : sz_phdr (v_c64 v) = phdr_size (v_c64 v) /\ 0 < phdr_size (v_c64 v) <= 56) by (destruct (v_c64 v); cbn; lia).
  destruct PS as [PS PB]. rewrite PS.
  assert (ME : v_max v < two63) by (destruct W as (_ & _ & ? & _); lia).
  assert (DV : two32 <= (two64 - 1) / phdr_size (v_c64 v)) by (destruct (v_c64 v); vm_compute; discriminate).
  replace ((two64 - 1) / phdr_size (v_c64 v) <? n) with false by lia.
  set (ps := phdr_size (v_c64 v)) in *. clearbody ps. unfold u64. rewrite Z.mod_small by nia.
  destruct (v_max v - E_phoff v <? n * ps) eqn:EC; f_equal; symmetry.
  - apply Z.min_r. apply Z.lt_succ_r. apply Z.div_lt_upper_bound; nia.
  - apply Z.min_l. apply Z.div_le_lower_bound; lia.
Qed.

(* C15, program header count.  Missing: a file with PN_XNUM whose section headers have
   not been loaded (read through a descriptor, other byte order, ELF_C_READ_MMAP). *)
Theorem C15_phdrnum_partial : forall img le al rdmmap off max e m fd, good img off max -> opens img le al rdmmap off max e m fd ->
  let v := view_of img off max in
  (m = true /\ v_le v = le /\ al = true /\ rdmmap = false) \/ E_phnum v <> 65535 \/ usable_shnum v = 0 ->
  elf_getphdrnum le e = spec_phdrnum v.
Proof.
  intros img le al rdmmap off max e m fd G OP v CASE. destruct (opens_descr _ _ _ _ _ _ _ _ _ G OP) as (W & A & D & _). fold v in W, D.
  rewrite (getphdrnum_spec _ _ _ _ _ _ W A D). unfold clip_phnum, spec_phdrnum, declared_phnum. cbn [c_map].
  destruct CASE as [(-> & -> & -> & ->)|[N|U]].
  - rewrite Bool.eqb_reflx. cbn [andb negb]. rewrite andb_true_r. reflexivity.
  - replace (E_phnum v =? 65535) with false by lia. reflexivity.
  - rewrite U. cbn [Z.ltb Z.compare]. rewrite !andb_false_r. reflexivity.
Qed.
Print Assumptions C15_phdrnum_partial.

(* Whatever is returned lies inside the file. *)
Theorem C15_phdrnum_inside : forall img le al rdmmap off max e m fd, good img off max -> opens img le al rdmmap off max e m fd ->
  let v := view_of img off max in
  (exists n, elf_getphdrnum le e = Ok n /\ (n = 0 \/ 0 < n /\ E_phoff v + n * phdr_size (v_c64 v) <= max)) \/
  elf_getphdrnum le e = Err ELF_E_INVALID_DATA.
Proof.
  intros img le al rdmmap off max e m fd G OP v. destruct (opens_descr _ _ _ _ _ _ _ _ _ G OP) as (W & A & D & _). fold v in W, D.
  rewrite (getphdrnum_spec _ _ _ _ _ _ W A D). 
  pose proof (phnum_bound _ _ W) as PN. pose proof (sinfo0_bound _ _ W) as SI.
  set (n := if _ && _ && _ then _ else _).
  assert (NB : 0 <= n).
  { unfold n. match goal with |- context [if ?b then _ else _] => destruct b eqn:EB end; [|lia]. apply SI. destruct (E_phnum v =? 65535); [|discriminate]. cbn [andb] in EB. lia. }
  clearbody n. unfold clip_phnum. change (v_max v) with max. 
  assert (PB : 0 < phdr_size (v_c64 v)) by (destruct (v_c64 v); cbn; lia). 
  destruct (E_phoff v =? 0); [left; exists 0; split; [reflexivity|left; reflexivity]|].
  destruct (max <=? E_phoff v) eqn:EM; [right; reflexivity|]. left. eexists. split; [reflexivity|].
  set (ps := phdr_size (v_c64 v)) in *. clearbody ps.
  pose proof (Z.mul_div_le (max - E_phoff v) ps PB). pose proof (Z.div_pos (max - E_phoff v) ps ltac:(lia) PB).
  destruct (Z.eq_dec (Z.min n ((max - E_phoff v) / ps)) 0) as [->|NZ]; [left; reflexivity|right]. split; [lia|].
  assert (Z.min n ((max - E_phoff v) / ps) <= (max - E_phoff v) / ps) by lia. nia.
Qed.
Print Assumptions C15_phdrnum_inside.

(* A file with PN_XNUM read through a descriptor: 65535 program headers are announced
   (clipped to the file, which has room for 10) instead of sh_info = 1. *)
Definition img_pn : bytes := ehdr64 192 64 65535 1 0 ++ shdr64 0 0 1 2 1 ++ repeat 0 64 ++ repeat 0 560.
(* PN_XNUM and section headers which have not been read: 65535, cut to the room in the file, is returned. *)
Theorem C15_phdrnum_refuted : exists img e, good img 0 (zlen img) /\ read_unmmaped img true 0 (zlen img) = Ok (IsElf e) /\
  spec_phdrnum (view_of img 0 (zlen img)) = Ok 1 /\ elf_getphdrnum true e = Ok 10.
Proof.
  exists img_pn. destruct (read_unmmaped img_pn true 0 (zlen img_pn)) as [[e| |]| | |] eqn:E; try (vm_compute in E; discriminate).
  exists e. split; [split; [apply byte_list_ok; vm_compute; reflexivity|vm_compute; repeat split; discriminate]|].
  split; [reflexivity|]. split; [vm_compute; reflexivity|].
  vm_compute in E. injection E as <-. vm_compute. reflexivity.
Qed.
Print Assumptions C15_phdrnum_refuted.

Example C15_nonvacuous : good img_ext 0 256 /\
  (exists e, opens img_ext true true false 0 256 e true false /\ elf_getshdrnum e = Ok 3 /\ elf_getshdrstrndx true true e = Ok 2 /\ elf_getphdrnum true e = Ok 0) /\
  (exists e, opens img_ext true true false 0 256 e false true /\ elf_getshdrnum e = Ok 3 /\ elf_getshdrstrndx true true e = Ok 2) /\
  (exists e, opens img_pn true true false 0 752 e true true /\ elf_getphdrnum true e = Ok 1).
Proof.
  split; [split; [apply byte_list_ok; vm_compute; reflexivity|vm_compute; repeat split; discriminate]|].
  split; [|split].
  - destruct (read_mmaped img_ext false true true false 0 256) as [[e| |]| | |] eqn:E; try (vm_compute in E; discriminate).
    exists e. split; [constructor; exact E|]. vm_compute in E. injection E as <-. vm_compute. repeat split; reflexivity.
  - destruct (read_unmmaped img_ext true 0 256) as [[e| |]| | |] eqn:E; try (vm_compute in E; discriminate).
    exists e. split; [apply opens_fd; [reflexivity|reflexivity|exact E]|]. vm_compute in E. injection E as <-. vm_compute. repeat split; reflexivity.
  - destruct (read_mmaped img_pn true true true false 0 752) as [[e| |]| | |] eqn:E; try (vm_compute in E; discriminate).
    exists e. split; [constructor; exact E|]. vm_compute in E. injection E as <-. vm_compute. reflexivity.
Qed.
