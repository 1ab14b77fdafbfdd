(* The properties of checksums: lib/crc32.c, lib/crc32_file.c, libelf/elf32_checksum.c. *)
From Verif Require Import Base CrcModel CrcSpec CrcProof.

(* the function with the table computes the CRC-32 of its argument *)
Theorem C82_crc : forall m, bytes_ok m -> crc32 0 m = crc_of m /\ 0 <= crc32 0 m < 4294967296.
Proof.
  intros m F. unfold crc32, crc_of. rewrite (fold_step m (not32 0) F). split; [reflexivity|]. assert (W : w32 (not32 0)) by (unfold w32, not32; cbn; lia). pose proof (fold_w32 m (not32 0) F W) as X. apply (w32_lxor _ 4294967295) in X; [exact X|unfold w32; lia].
Qed.
Print Assumptions C82_crc.
(* the check value of CRC-32: that of "123456789" *)
Example C82_crc_nonvacuous : crc32 0 [49; 50; 51; 52; 53; 54; 55; 56; 57] = 0xcbf43926.
Proof. vm_compute. reflexivity. Qed.

(* it does not matter in which pieces the bytes are given *)
Theorem C82_pieces : forall c a b, crc32 (crc32 c a) b = crc32 c (a ++ b).
Proof. exact crc_split. Qed.
Print Assumptions C82_pieces.
Lemma blocks_ok : forall bs c, c = crc32 c [] -> fold_left crc32 bs c = crc32 c (concat bs).
Proof.
  induction bs as [|b bs IH]; intros c E; cbn [fold_left concat]; [exact E|]. rewrite IH by (rewrite crc_split, app_nil_r; reflexivity). apply crc_split.
Qed.
Lemma crc_nil : forall c, crc32 c [] = c.
Proof. intros c. unfold crc32. cbn [fold_left]. apply not32_inv. Qed.
Example C82_pieces_nonvacuous : fold_left crc32 [[49; 50]; []; [51; 52; 53; 54; 55]; [56]; [57]] 0 = 0xcbf43926.
Proof. vm_compute. reflexivity. Qed.

(* two files that differ only in up to four bytes next to each other have different checksums *)
Theorem C82_detect : forall a x y b, bytes_ok (a ++ x ++ b) -> bytes_ok (a ++ y ++ b) -> length x = length y -> (length x <= 4)%nat -> x <> y -> crc32 0 (a ++ x ++ b) <> crc32 0 (a ++ y ++ b).
Proof.
  intros a x y b F1 F2 L L4 NE E. apply NE. unfold crc32 in E. assert (E1 : fold_left crc_step (a ++ x ++ b) (not32 0) = fold_left crc_step (a ++ y ++ b) (not32 0)) by (rewrite <- (not32_inv (fold_left crc_step (a ++ x ++ b) (not32 0))), E; apply not32_inv).
  rewrite !fold_step in E1 by assumption. apply bytes_ok_app in F1. destruct F1 as (FA & F1). apply bytes_ok_app in F1. destruct F1 as (FX & FB). apply bytes_ok_app in F2. destruct F2 as (_ & F2). apply bytes_ok_app in F2. destruct F2 as (FY & _).
  rewrite !fold_left_app in E1. assert (W : w32 (not32 0)) by (unfold w32, not32; cbn; lia). pose proof (fold_w32 a (not32 0) FA W) as WA. set (c := fold_left _ a (not32 0)) in *. clearbody c.
  apply fold_inj in E1; [|exact FB|apply fold_w32; assumption|apply fold_w32; assumption]. rewrite !enter_all in E1 by (assumption || lia). rewrite <- L in E1. assert (WX := le_w32 x FX L4). assert (WY := le_w32 y FY ltac:(lia)).
  apply many_inj in E1; [|apply w32_lxor; assumption|apply w32_lxor; assumption]. apply le_inj; [exact FX|exact FY|exact L|]. assert (X : Z.lxor c (Z.lxor c (le_value x)) = Z.lxor c (Z.lxor c (le_value y))) by (rewrite E1; reflexivity). rewrite <- !Z.lxor_assoc, Z.lxor_nilpotent, !Z.lxor_0_l in X. exact X.
Qed.
Print Assumptions C82_detect.
Example C82_detect_nonvacuous : bytes_ok ([1; 2; 3] ++ [4; 5; 6; 7] ++ [8]) /\ length [4; 5; 6; 7] = length [4; 5; 6; 6] /\ crc32 0 ([1; 2; 3] ++ [4; 5; 6; 7] ++ [8]) = 0x3fca88c5 /\ crc32 0 ([1; 2; 3] ++ [4; 5; 6; 6] ++ [8]) <> 0x3fca88c5.
Proof. split; [repeat constructor; unfold is_u8; lia|]. vm_compute. repeat split; discriminate. Qed.

Lemma zsub_next : forall (l : bytes) i n, 0 <= i -> 0 <= n -> i + n <= zlen l -> zsub l 0 i ++ zsub l i n = zsub l 0 (i + n).
Proof. intros l i n I N L. pose proof (zsub_split _ l i n I N) as H. unfold zsub at 1 3. cbn [Z.to_nat skipn]. exact H. Qed.
Lemma zsub_all : forall (l : bytes), zsub l 0 (zlen l) = l.
Proof. intros l. unfold zsub, zlen. rewrite Nat2Z.id. cbn [Z.to_nat skipn]. apply firstn_all. Qed.
Lemma read_ok : forall fuel file count off, reads_ok file count -> 0 <= off <= zlen file -> zlen file - off < Z.of_nat fuel ->
  exists r x, read_loop fuel file count off (crc32 0 (zsub file 0 off)) = Ok (r, x) /\ (x = 0 -> r = crc32 0 file) /\ ((forall o, 0 <= count o) -> x = 0).
Proof.
  induction fuel as [|fuel IH]; intros file count off RO B FU; [lia|]. cbn [read_loop]. destruct (0 <? count off) eqn:E.
  - destruct (RO off B) as [H|[H|H]]; [lia| |lia]. rewrite crc_split, zsub_next by lia. apply IH; [exact RO|lia|lia].
  - exists (crc32 0 (zsub file 0 off)), (if count off =? 0 then 0 else -1). split; [reflexivity|]. split.
    + intros X. destruct (count off =? 0) eqn:Z0; [|discriminate]. destruct (RO off B) as [H|[H|(H & ->)]]; [lia|lia|]. rewrite zsub_all. reflexivity.
    + intros NE. specialize (NE off). destruct (count off =? 0) eqn:Z0; [reflexivity|lia].
Qed.
(* however the system maps and reads the file, what comes out is the checksum of the file; it fails
   only if a read fails *)
Theorem C82_file : forall file mapped more count, reads_ok file count -> (forall n, mapped = Some n -> 0 < n) ->
  exists r x, crc32_file file mapped more count = Ok (r, x) /\ (x = 0 -> r = crc32 0 file) /\ ((forall o, 0 <= count o) -> x = 0).
Proof.
  intros file mapped more count RO MP. pose proof (zlen_nonneg _ file) as ZN. assert (C0 : 0 = crc32 0 (zsub file 0 0)) by (unfold zsub; cbn [Z.to_nat firstn]; symmetry; apply crc_nil). unfold crc32_file. destruct mapped as [n|].
  - specialize (MP n eq_refl). assert (H : forall fuel off i, 0 <= off <= zlen file -> zlen file - off < Z.of_nat fuel ->
      exists r x, map_loop fuel file n more i count off (zlen file - off) (crc32 0 (zsub file 0 off)) = Ok (r, x) /\ (x = 0 -> r = crc32 0 file) /\ ((forall o, 0 <= count o) -> x = 0)).
    { induction fuel as [|fuel IH]; intros off i B FU; [lia|]. cbn [map_loop]. destruct (zlen file - off <=? n) eqn:E.
      - exists (crc32 0 file), 0. split; [|auto]. rewrite crc_split, zsub_next by lia. replace (off + (zlen file - off)) with (zlen file) by lia. rewrite zsub_all. reflexivity.
      - rewrite crc_split, zsub_next by lia. destruct (more i); [replace (zlen file - off - n) with (zlen file - (off + n)) by lia; apply IH; lia|]. apply read_ok; [exact RO|lia|unfold zlen in *; lia]. }
    specialize (H (S (length file)) 0 0%nat ltac:(lia) ltac:(unfold zlen; lia)). rewrite Z.sub_0_r in H. rewrite <- C0 in H. exact H.
  - pose proof (read_ok (S (length file)) file count 0 RO ltac:(lia) ltac:(unfold zlen; lia)) as H. rewrite <- C0 in H. exact H.
Qed.
Print Assumptions C82_file.
Definition ex_f : bytes := [49; 50; 51; 52; 53; 54; 55; 56; 57].
Example C82_file_nonvacuous : reads_ok ex_f (fun o => Z.min 2 (9 - o)) /\ crc32_file ex_f (Some 4) (fun i => false) (fun o => Z.min 2 (9 - o)) = Ok (0xcbf43926, 0) /\ crc32_file ex_f (Some 4) (fun i => true) (fun o => -1) = Ok (0xcbf43926, 0).
Proof. split; [|vm_compute; split; reflexivity]. intros off B. change (zlen ex_f) with 9 in *. lia. Qed.

(* the sections that count *)
Definition counts (s : csec) : bool := negb (strip_p s) && negb (c_type s =? SHT_NOBITS).
Definition content (s : csec) : bytes := concat (c_blocks s).
Lemma sum_ok : forall ss c, Forall (fun s => forall d, c_raw s = Some d -> c_blocks s = [d]) ss -> fold_left sum_section ss c = crc32 c (concat (map content (filter counts ss))).
Proof.
  induction ss as [|s ss IH]; intros c F; cbn [fold_left filter]; [symmetry; apply crc_nil|]. apply Forall_cons_iff in F. destruct F as (R & F). rewrite (IH _ F). unfold sum_section, counts at 2. destruct (strip_p s); cbn [negb andb]; [reflexivity|]. destruct (c_type s =? SHT_NOBITS); cbn [negb]; [reflexivity|]. cbn [map concat].
  rewrite <- crc_split. f_equal. unfold content. destruct (c_raw s) as [d|]; [rewrite (R d eq_refl); cbn [concat]; rewrite app_nil_r; reflexivity|]. apply blocks_ok. symmetry. apply crc_nil.
Qed.
(* the checksum of a file is the CRC-32 of the contents of its sections, without those that strip
   removes and those that have none in the file.  Missing: blocks added to a section that is
   read from the file *)
Theorem C82_checksum_partial : forall ss, Forall (fun s => forall d, c_raw s = Some d -> c_blocks s = [d]) ss ->
  elf_checksum ss = crc32 0 (concat (map content (filter counts ss))).
Proof. intros ss F. apply sum_ok. exact F. Qed.
Print Assumptions C82_checksum_partial.
Definition ex_ss : list csec := [CSec 1 true (Some [46; 97]) (Some [49; 50]) [[49; 50]]; CSec 1 false (Some [46; 98]) (Some [7; 7]) [[7; 7]]; CSec 8 true (Some [46; 99]) (Some []) [[]]; CSec 7 false None None [[51; 52; 53]; [54]]; CSec 1 false (Some (warning_name ++ [97])) (Some [55; 56; 57]) [[55; 56; 57]]; CSec 2 false None (Some [5]) [[5]]].
Example C82_checksum_partial_nonvacuous : Forall (fun s => forall d, c_raw s = Some d -> c_blocks s = [d]) ex_ss /\ elf_checksum ex_ss = 0xcbf43926.
Proof. split; [|vm_compute; reflexivity]. repeat (apply Forall_cons; [cbn; intros d E; (discriminate E || (injection E as <-; reflexivity))|]). apply Forall_nil. Qed.
(* a block that the program added to a section read from the file does not change the checksum *)
Theorem C82_checksum_refuted : exists d b b', b <> b' /\ elf_checksum [CSec 1 true (Some [46; 97]) (Some d) [d; b]] = elf_checksum [CSec 1 true (Some [46; 97]) (Some d) [d; b']] /\ crc32 0 (d ++ b) <> crc32 0 (d ++ b').
Proof. exists [1], [2], [3]. split; [discriminate|]. split; [vm_compute; reflexivity|vm_compute; discriminate]. Qed.
Print Assumptions C82_checksum_refuted.

(* stripping a file does not change its checksum *)
Theorem C82_strip : forall ss kept, (forall s, strip_p s = false -> kept s = true) -> elf_checksum (filter kept ss) = elf_checksum ss.
Proof.
  intros ss kept K. unfold elf_checksum. generalize 0 as c. induction ss as [|s ss IH]; intros c; [reflexivity|]. cbn [filter]. destruct (strip_p s) eqn:E.
  - assert (X : sum_section c s = c) by (unfold sum_section; rewrite E; reflexivity). destruct (kept s); cbn [fold_left]; rewrite X; apply IH.
  - rewrite (K s E). cbn [fold_left]. apply IH.
Qed.
Print Assumptions C82_strip.
Example C82_strip_nonvacuous : length (filter (fun s => negb (strip_p s)) ex_ss) = 4%nat /\ elf_checksum (filter (fun s => negb (strip_p s)) ex_ss) = 0xcbf43926.
Proof. vm_compute. split; reflexivity. Qed.
