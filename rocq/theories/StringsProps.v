(* C97: strings prints every string of the file, once, where it is. *)
From Coq Require Import Sorting.Sorted.
From Verif Require Import Base StringsModel StringsSpec StringsProof.

(* What counts as a character of a string: what isprint of the locale says, and the tab; with the 7-bit encoding nothing above 127. *)
Theorem C97_character : forall isp b7 c, good isp b7 c = true <-> (isp c = true \/ c = 9) /\ (b7 = true -> c <= 127).
Proof. intros isp b7 c. unfold good. rewrite andb_true_iff, !orb_true_iff, Z.eqb_eq, negb_true_iff, Z.leb_le. destruct b7; intuition congruence. Qed.
Print Assumptions C97_character.

(* Bytes handled as one piece: exactly the strings that are in them, in order, each with its offset. *)
Theorem C97_piece : forall isp b7 min base l, exists out un, process_chunk (good isp b7) min (base + zlen l) l None = Cok out un /\ prints (good isp b7) min base l out.
Proof.
  intros isp b7 min base l. destruct (chunk_one (good isp b7) min (base + zlen l) l) as (un & E & _). replace (base + zlen l - zlen l) with base in E by lia.
  eexists; exists un. split; [exact E | apply scan_whole].
Qed.
Print Assumptions C97_piece.

Definition ascii (c : Z) : bool := (32 <=? c) && (c <=? 126).
Definition gd := good ascii false.
Example C97_piece_nonvacuous : process_chunk gd 4 17 [104; 101; 108; 108; 111; 0; 97; 98; 99; 0; 119; 111; 9; 108; 100; 200; 120] None = Cok [(0, [104; 101; 108; 108; 111]); (10, [119; 111; 9; 108; 100])] None.
Proof. vm_compute. reflexivity. Qed.

(* An ELF file that fits in one mapping and whose allocated sections are in the order of the file: the strings of each of the sections, in order; sections that are not within the
   file are left out, which the exit status tells. *)
Theorem C97_sections_partial : forall isp b7 min file secs, min < zlen file -> zlen file <= MMAP_MAX -> Forall (fun s => 0 <= ss_off s /\ 0 <= ss_size s) secs ->
  let look s := negb (ss_nobits s) && ss_alloc s && ((ss_off s <=? zlen file) && (ss_size s <=? zlen file - ss_off s)) in
  let lost s := negb (ss_nobits s) && ss_alloc s && negb ((ss_off s <=? zlen file) && (ss_size s <=? zlen file - ss_off s)) in
  StronglySorted (fun a b => ss_off a <= ss_off b) (filter look secs) ->
  exists outs, read_elf (good isp b7) min file None secs [] 0 = Eout (concat outs) (if existsb lost secs then 1 else 0) /\
    Forall2 (fun s o => prints (good isp b7) min (ss_off s) (zsub file (ss_off s) (ss_size s)) o) (filter look secs) outs.
Proof. intros isp b7 min file secs M X P look lost S. exact (elf_ok (good isp b7) min file M X secs None [] 0 P S I). Qed.
Print Assumptions C97_sections_partial.

Definition afile : bytes := [104; 101; 108; 108; 111; 0; 97; 98; 99; 100; 0; 119; 111; 114; 108; 100; 0; 120].
Example C97_sections_nonvacuous :
  let secs := [Ss false true 0 6; Ss true true 0 9; Ss false false 6 5; Ss false true 11 6; Ss false true 17 2; Ss false true 18 0] in
  StronglySorted (fun a b => ss_off a <= ss_off b) (filter (fun s => negb (ss_nobits s) && ss_alloc s && ((ss_off s <=? zlen afile) && (ss_size s <=? zlen afile - ss_off s))) secs) /\
  read_elf gd 4 afile None secs [] 0 = Eout [(0, [104; 101; 108; 108; 111]); (11, [119; 111; 114; 108; 100])] 1.
Proof. split; [cbn; repeat first [apply SSorted_nil | apply SSorted_cons | apply Forall_nil | apply Forall_cons | cbn; lia] | vm_compute; reflexivity]. Qed.

(* An allocated section that lies in the file before the first one, and ends where the page of the first one starts, is passed over without a word. *)
Theorem C97_order_refuted : forall isp b7 min file a b o, zlen file <= MMAP_MAX -> min < zlen file -> a = Ss false true 4096 0 -> b = Ss false true o (4096 - o) -> 0 <= o < 4096 -> 4096 <= zlen file ->
  read_elf (good isp b7) min file None [a; b] [] 0 = Eout [] 0.
Proof.
  intros isp b7 min file a b o X M -> -> O L. cbn [read_elf ss_nobits ss_alloc ss_off ss_size negb andb].
  replace ((zlen file <? 4096) || (zlen file - 4096 <? 0)) with false by lia.
  replace ((zlen file <? o) || (zlen file - o <? 4096 - o)) with false by lia.
  replace (o + (4096 - o)) with 4096 by lia.
  assert (E : forall m, m = None -> read_block (good isp b7) min file m 4096 (4096 + 0) = Bout [] (4096, zlen file)).
  { intros m ->. unfold read_block, PS. change (4096 - 4096 mod 4096) with 4096. replace (Z.min MMAP_MAX (zlen file)) with (zlen file) by lia. replace (min <? zlen file) with true by lia. cbn [negb].
    replace ((4096 + 0 <? 4096) || (4096 + zlen file <? 4096)) with false by lia. replace (4096 + zlen file <? 4096 + 0) with false by lia. replace (4096 <? 4096 + zlen file) with true by lia. reflexivity. }
  rewrite E by reflexivity. unfold read_block. replace (min <? zlen file) with true by lia. cbn [negb].
  replace ((4096 <? 4096) || (4096 + zlen file <? o)) with false by lia. replace (4096 + zlen file <? 4096) with false by lia. replace (4096 <=? o) with false by lia. reflexivity.
Qed.
Print Assumptions C97_order_refuted.
Definition bfile : bytes := repeat 0 4000 ++ repeat 65 90 ++ repeat 0 110.
Example C97_order_nonvacuous : found gd 4 100 (zsub bfile 100 3996) (4000, repeat 65 90) /\ read_elf gd 4 bfile None [Ss false true 4096 0; Ss false true 100 3996] [] 0 = Eout [] 0.
Proof.
  split; [|vm_compute; reflexivity]. exists (repeat 0 3900), 0, (repeat 0 5). cbn [fst snd]. split; [vm_compute; reflexivity|]. split; [vm_compute; reflexivity|].
  split; [apply Forall_forall; intros x H; apply repeat_spec in H; subst x; reflexivity|]. split; [vm_compute; discriminate|]. split; [reflexivity|]. right. exists (repeat 0 3899), 0. split; vm_compute; reflexivity.
Qed.

(* Standard input, or a file that cannot be mapped, for every way in which read gives its bytes: if every read gives at least as many bytes as a string must have, and one that is not of a string,
   then the texts printed are those of the strings of the whole input, none lost, none twice and none cut where a read ends. *)
Theorem C97_reads_partial : forall isp b7 min from reads, 1 <= min -> Forall (fun n => min <= zlen n /\ exists c, In c n /\ good isp b7 c = false) reads ->
  exists out full, no_mmap (good isp b7) min from reads [] None [] = Ok out /\ prints (good isp b7) min 0 (concat reads) full /\ map snd out = map snd full.
Proof.
  intros isp b7 min from reads M F. pose proof (no_mmap_ok (good isp b7) min M reads from [] None [] ltac:(discriminate) ltac:(congruence) ltac:(rewrite zlen_nil; lia)) as K.
  assert (F1 : Forall (fun n => min <= zlen n) reads) by (eapply Forall_impl; [|exact F]; cbn; tauto). specialize (K F1).
  destruct (no_mmap _ _ _ _ _ _ _) as [o| | |].
  - exists o, (scan (good isp b7) min 0 [] (concat reads)). split; [reflexivity|]. split; [apply scan_whole | exact K].
  - destruct K as (n & K1 & K2). rewrite Forall_forall in F, K2. destruct (F _ K1) as (_ & c & C1 & C2). rewrite (K2 c C1) in C2. discriminate.
  - destruct K as (n & K1 & K2). rewrite Forall_forall in F, K2. destruct (F _ K1) as (_ & c & C1 & C2). rewrite (K2 c C1) in C2. discriminate.
  - destruct K as (n & K1 & K2). rewrite Forall_forall in F, K2. destruct (F _ K1) as (_ & c & C1 & C2). rewrite (K2 c C1) in C2. discriminate.
Qed.
Print Assumptions C97_reads_partial.
(* The input  0 h e l l | o 0 a b | c d 0 0 *)
Example C97_reads_nonvacuous : no_mmap gd 4 0 [[0; 104; 101; 108; 108]; [111; 0; 97; 98]; [99; 100; 0; 0]] [] None [] = Ok [(5, [104; 101; 108; 108; 111]); (11, [97; 98; 99; 100])].
Proof. vm_compute. reflexivity. Qed.

(* The offsets are not those of the strings: for a string that goes over two reads it is that of the second part, and bytes that are kept for the next read are counted twice.  Above, hello is at 1
   and is said to be at 5; here abcd is at 6 and is said to be at 10. *)
Theorem C97_offset_refuted : exists reads out, Forall (fun n => 4 <= zlen n /\ exists c, In c n /\ gd c = false) reads /\ no_mmap gd 4 0 reads [] None [] = Ok out /\
  In (10, [97; 98; 99; 100]) out /\ ~ found gd 4 0 (concat reads) (10, [97; 98; 99; 100]) /\ found gd 4 0 (concat reads) (6, [97; 98; 99; 100]).
Proof.
  exists [[0; 0; 0; 0; 0]; [0; 97; 98; 99; 100; 0]], [(10, [97; 98; 99; 100])]. split.
  { repeat first [apply Forall_nil | apply Forall_cons]; (split; [vm_compute; discriminate | exists 0; split; [left; reflexivity | reflexivity]]). }
  split; [vm_compute; reflexivity|]. split; [left; reflexivity|]. split.
  - intros (a & c & b & E & F & _). cbn [fst snd concat app] in *. apply (f_equal zlen) in E. rewrite !zlen_app, !zlen_cons in E. pose proof (zlen_nonneg _ b). unfold zlen in *. cbn [length] in E. lia.
  - exists [0; 0; 0; 0; 0; 0], 0, []. split; [reflexivity|]. split; [reflexivity|]. split; [repeat constructor|]. split; [vm_compute; discriminate|]. split; [reflexivity|]. right. exists [0; 0; 0; 0; 0], 0. auto.
Qed.
Print Assumptions C97_offset_refuted.

(* A string whose end comes with a read of fewer bytes than a string must have is lost, if that is the last of the file; if read then says that it was the last one, an assertion fails. *)
Theorem C97_lost_refuted : forall u z, Forall (fun c => gd c = true) u -> gd z = false -> 4 <= zlen u ->
  no_mmap gd 4 0 [u; [z]] [] None [] = Ok [] /\ no_mmap gd 4 0 [u; [z]; []] [] None [] = UB /\ found gd 4 0 (u ++ [z]) (0, u).
Proof.
  intros u z G Hz L.
  assert (K : forall l rv out, Forall (fun c => gd c = true) l -> chunk_loop gd 4 (zlen u) l rv (zlen rv) None out = (out, rev l ++ rv, zlen rv + zlen l, None)).
  { induction l as [|c r IH]; intros rv out H; cbn [chunk_loop]; [rewrite zlen_nil, Z.add_0_r; reflexivity|]. apply Forall_cons_iff in H. destruct H as (H1 & H2). rewrite H1.
    replace (zlen rv + 1) with (zlen (c :: rv)) by (rewrite zlen_cons; lia). rewrite IH by exact H2. cbn [rev]. rewrite <- app_assoc. cbn [app]. do 2 f_equal. rewrite !zlen_cons. lia. }
  assert (C : process_chunk gd 4 (0 + zlen u) u None = Cok [] (Some u)).
  { unfold process_chunk. specialize (K u [] [] G). rewrite zlen_nil in K. replace (0 + zlen u) with (zlen u) by lia. rewrite K. rewrite app_nil_r, zl_rev, rev_involutive.
    replace (0 + zlen u =? 0) with false by lia. replace (zlen u <? 0 + zlen u) with false by lia. do 2 f_equal. unfold zsub, zlen. cbn. rewrite Nat2Z.id. apply firstn_all. }
  destruct u as [|c u]; [rewrite zlen_nil in L; lia|]. set (w := c :: u) in *.
  split; [|split].
  - cbn [no_mmap]. change ([] ++ w) with w. replace (4 <=? zlen w) with true by lia. rewrite C. reflexivity.
  - cbn [no_mmap]. change ([] ++ w) with w. replace (4 <=? zlen w) with true by lia. rewrite C. reflexivity.
  - exists [], z, []. cbn [fst snd app]. auto 8.
Qed.
Print Assumptions C97_lost_refuted.
Example C97_lost_nonvacuous : Forall (fun c => gd c = true) [104; 101; 108; 108; 111] /\ gd 0 = false.
Proof. split; [repeat constructor | reflexivity]. Qed.

(* A string that goes over a whole read: memory after the bytes that were read is taken for a part of it. *)
Theorem C97_overrun_refuted : exists reads, Forall (fun n => 4 <= zlen n) reads /\ no_mmap gd 4 0 reads [] None [] = UB /\ found gd 4 0 (concat reads) (1, repeat 65 10).
Proof.
  exists [0 :: repeat 65 5; repeat 65 5; [0; 0; 0; 0]]. split; [repeat first [apply Forall_nil | apply Forall_cons]; vm_compute; discriminate|]. split; [vm_compute; reflexivity|].
  exists [0], 0, [0; 0; 0]. split; [reflexivity|]. split; [reflexivity|]. split; [repeat constructor|]. split; [vm_compute; discriminate|]. split; [reflexivity|]. right. exists [], 0. auto.
Qed.
Print Assumptions C97_overrun_refuted.

(* With characters of 2 or of 4 bytes, of either byte order, no string of more than one character is ever printed, as the search goes on by one byte and not by one character. *)
Theorem C97_wide_refuted : forall isp b7 bpc big min to l, isp 0 = false -> bpc = 2 \/ bpc = 4 -> 2 <= min -> bytes_ok l -> process_chunk_mb (good isp b7) bpc big min to l None = [].
Proof.
  intros isp b7 bpc big min to l I0 B M O. assert (G : good isp b7 0 = false) by (unfold good; rewrite I0; reflexivity).
  pose proof (mb_none (good isp b7) bpc big min to G B M l [] 0 O (or_introl eq_refl)) as K. unfold process_chunk_mb.
  destruct (mb_loop _ _ _ _ _ _ _ _ _ _) as (((o, rv), cur), un). exact K.
Qed.
Print Assumptions C97_wide_refuted.
Example C97_wide_nonvacuous : process_chunk_mb gd 2 false 4 14 [104; 0; 101; 0; 108; 0; 108; 0; 111; 0; 0; 0; 0; 0] None = [] /\ process_chunk_mb gd 2 false 1 14 [104; 0; 101; 0; 108; 0] None = [(8, [104]); (10, [101])].
Proof. split; vm_compute; reflexivity. Qed.
