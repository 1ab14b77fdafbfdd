(* Property C60: the frame lookup by address finds the FDE that covers the address. *)
From Verif Require Import Base LebModel LebSpec LebProof DwModel Slice CfiModel CfiSpec CfiProof NcfiModel NcfiSpec NcfiProof NcfiProps FdeModel FdeSpec FdeProof FdeTable.

(* ------------------------------------------------------------------ *)
(* Any sequence of lookups, starting with an empty cache: every answer is the FDE that covers the address, or
   DWARF_E_NO_MATCH when none does; what was looked up before does not matter. *)
Theorem C60_lookup : forall c es frames, holds c es -> frames_of c es frames -> forall q,
  exists rs h, lookups c None cache0 q = Ok (rs, h) /\ Forall2 (answers c frames) q rs.
Proof.
  intros c es frames HH FR q. destruct (lookups_ok c es frames HH FR q cache0 es (inv0 c es frames HH FR)) as (rs & h & r & E & _ & F).
  exists rs, h. split; assumption.
Qed.
Print Assumptions C60_lookup.

(* The same with the search table of .eh_frame_hdr. *)
Theorem C60_header : forall c es frames, holds c es -> frames_of c es frames -> 0 <= c_vaddr c < two64 ->
  forall hdr vaddr, header_ok c frames hdr vaddr -> zlen hdr < two63 -> forall q,
  exists t rs h, eh_table c hdr vaddr = Ok (Some t) /\ lookups c t cache0 q = Ok (rs, h) /\ Forall2 (answers c frames) q rs.
Proof.
  intros c es frames HH FR VA hdr vaddr HO HL q. destruct (header_table c frames hdr vaddr HO HL) as (t & T & TO).
  destruct t as [t|].
  - destruct (lookups_table c es frames t HH FR TO VA q cache0 es (inv0 c es frames HH FR)) as (rs & h & r & E & _ & F).
    exists (Some t), rs, h. auto.
  - destruct (lookups_ok c es frames HH FR q cache0 es (inv0 c es frames HH FR)) as (rs & h & r & E & _ & F).
    exists None, rs, h. auto.
Qed.
Print Assumptions C60_header.

Definition ex_es : list (Z * aentry) := [(0, ACIE ex_cie); (24, AFDE 0 ex_fde)].
Definition ex_frame : aframe := AFrame 24 0 ex_cie 8224 32 [65; 14; 16].
Lemma ex_holds : holds ex_cfi ex_es.
Proof.
  destruct C59_walk_nonvacuous as (E & A & T & _). exists (firstn 44 ex_mem). split; [exact E|]. split; [exact A|].
  split; [vm_compute; discriminate|]. split; [vm_compute; reflexivity|]. right. split; [exact T|vm_compute; discriminate].
Qed.
Lemma ex_means : cie_means ex_cfi ex_cie 27 true 0 false.
Proof. apply (M_sized ex_cfi ex_cie [82] (Some 27) 0 false); [reflexivity|]. apply (S_addr ex_cfi true 27 [] [] None 0 false). constructor. Qed.
Lemma ex_frame_means : frame_means ex_cfi ex_es ex_frame.
Proof.
  exists ex_fde, (firstn 20 (skipn 24 ex_mem)), 27, true, 0, false, [0; 16; 0; 0], [32; 0; 0; 0], [0].
  split; [right; left; reflexivity|]. split; [left; reflexivity|]. split; [exact ex_fde_bytes|].
  split; [split; [vm_compute; discriminate|split; [vm_compute; discriminate|reflexivity]]|]. split; [vm_compute; discriminate|].
  split; [exact ex_means|]. split; [reflexivity|].
  split; [exists 16, 11, (4096 + 32), 4096; split; [reflexivity|split; [apply (B_pcrel ex_cfi 32)|split; [apply (F_s4 ex_cfi 4096); lia|reflexivity]]]|].
  split; [apply (F_s4 ex_cfi 32); lia|]. split; [exists [0], []; split; [leb|reflexivity]|].
  cbn. lia.
Qed.
Lemma ex_frames : frames_of ex_cfi ex_es [ex_frame].
Proof.
  split; [|split; [|split]].
  - intros off k [H|[H|[]]]; [injection H as <- <-; exists 27, true, 0, false; exact ex_means|discriminate].
  - intros f [<-|[]]. exact ex_frame_means.
  - intros off co b [H|[H|[]]]; [discriminate|injection H as <- <- <-; exists ex_frame; split; [left; reflexivity|reflexivity]].
  - intros f g a [<-|[]] [<-|[]] _ _. reflexivity.
Qed.
Definition ex_icie : icie := Icie 0 1 (-8) 16 0 17 24 27 255 true false.
Example C60_lookup_nonvacuous : holds ex_cfi ex_es /\ frames_of ex_cfi ex_es [ex_frame] /\
  exists h, lookups ex_cfi None cache0 [8223; 8224; 8255; 8256] =
    Ok ([inr 37; inl (Fde ex_icie 8224 8256 41 44); inl (Fde ex_icie 8224 8256 41 44); inr 37], h).
Proof. split; [exact ex_holds|]. split; [exact ex_frames|]. eexists. vm_compute. reflexivity. Qed.
(* .eh_frame_hdr at 2048: pointer pcrel sdata4, count udata4, table datarel sdata4; .eh_frame at 4096 *)
Definition ex_hdr : bytes := [1; 27; 3; 59] ++ [252; 7; 0; 0] ++ [1; 0; 0; 0] ++ [32; 24; 0; 0; 24; 8; 0; 0].
Example C60_header_nonvacuous : header_ok ex_cfi [ex_frame] ex_hdr 2048 /\
  exists t h, eh_table ex_cfi ex_hdr 2048 = Ok (Some (Some t)) /\
    lookups ex_cfi (Some t) cache0 [8223; 8224; 8255; 8256] =
    Ok ([inr 37; inl (Fde ex_icie 8224 8256 41 44); inl (Fde ex_icie 8224 8256 41 44); inr 37], h).
Proof.
  split; [|eexists (Table [32; 24; 0; 0; 24; 8; 0; 0] 20 2048 1 59), _; split; [vm_compute; reflexivity|vm_compute; reflexivity]].
  exists 27, 3, 59, [252; 7; 0; 0], [1; 0; 0; 0], [32; 24; 0; 0; 24; 8; 0; 0], [], [(8224, 4120)], 4.
  split; [reflexivity|]. split; [vm_compute; discriminate|]. split; [vm_compute; discriminate|].
  split; [exists 16, 11, (2048 + 4), 2044; split; [reflexivity|split; [apply (B_pcrel (hdr_view ex_cfi ex_hdr 2048) 4)|split; [apply (F_s4 (hdr_view ex_cfi ex_hdr 2048) 2044); lia|reflexivity]]]|].
  split; [exists 0, 3, 0, 1; split; [reflexivity|split; [constructor|split; [apply (F_u4 (hdr_view ex_cfi ex_hdr 2048) 1); lia|reflexivity]]]|].
  split; [exists 48, 11; split; [reflexivity|split; [right; reflexivity|cbn; auto]]|]. split; [reflexivity|].
  split.
  - apply (TB_cons ex_cfi _ 59 4 8224 4120 [32; 24; 0; 0] [24; 8; 0; 0] [] []); try reflexivity; [| |constructor]; intro p.
    + exists 48, 11, 2048, 6176. split; [reflexivity|]. split; [apply (B_data (hdr_view ex_cfi ex_hdr 2048) p)|]. split; [apply (F_s4 (hdr_view ex_cfi ex_hdr 2048) 6176); lia|reflexivity].
    + exists 48, 11, 2048, 2072. split; [reflexivity|]. split; [apply (B_data (hdr_view ex_cfi ex_hdr 2048) p)|]. split; [apply (F_s4 (hdr_view ex_cfi ex_hdr 2048) 2072); lia|reflexivity].
  - split; [|split].
    + intros f [<-|[]] _. left. reflexivity.
    + intros s a [H|[]]. injection H as <- <-. exists ex_frame. split; [left; reflexivity|]. split; [cbn; lia|split; reflexivity].
    + intros i j x y I X Y. exfalso. assert (j < 1) by (unfold znth in Y; destruct ((0 <=? j) && (j <? zlen [(8224, 4120)])) eqn:E; [cbn in E; lia|discriminate]). lia.
Qed.

(* ------------------------------------------------------------------ *)
(* FALSE: that a lookup in any section reads only bytes of the section.  The encoding bytes that the letters
   of the augmentation string call for are read without a check of the augmentation data size: a CIE "zR"
   with no augmentation data at the end of the section. *)
Definition over_mem : bytes := [12; 0; 0; 0; 0; 0; 0; 0; 1; 122; 82; 0; 1; 120; 16; 0].
Theorem C60_overread_refuted : exists c a, bytes_ok (c_mem c) /\ zlen (c_mem c) = c_dsize c /\ lookups c None cache0 [a] = UB.
Proof.
  exists (Cfi over_mem 16 true false true 4096 0 0), 8224. split; [|split; vm_compute; reflexivity].
  repeat constructor; unfold is_u8; lia.
Qed.
Print Assumptions C60_overread_refuted.

(* FALSE: that the FDE found was read from its own bytes.  The addresses are only bounded by the section and
   the test of the augmentation data size wraps around when they end behind the entry: with a CIE whose
   addresses have 4 bytes, an FDE of a single byte takes its range from the next entry, and its instructions
   begin behind their end. *)
Definition short_mem : bytes :=
  [20; 0; 0; 0; 0; 0; 0; 0; 1; 122; 82; 0; 1; 120; 16; 1; 3; 12; 7; 8; 144; 1; 0; 0] ++
  [5; 0; 0; 0; 28; 0; 0; 0; 0] ++ [16; 0; 0; 0; 37; 0; 0; 0; 0; 16; 0; 0; 32; 0; 0; 0; 0; 65; 14; 16].
Theorem C60_short_refuted : exists c a, bytes_ok (c_mem c) /\ zlen (c_mem c) = c_dsize c /\
  next_cfi c 24 = Ok (NEntry 33 (EFde 0 32 33)) /\
  exists g h, lookups c None cache0 [a] = Ok ([inl g], h) /\ fd_iend g = 33 /\ 33 < fd_ins g.
Proof.
  exists (Cfi short_mem 53 true false true 4096 0 0), 4096. split; [repeat constructor; unfold is_u8; lia|]. split; [reflexivity|].
  split; [vm_compute; reflexivity|]. eexists _, _. split; [vm_compute; reflexivity|]. split; reflexivity.
Qed.
Print Assumptions C60_short_refuted.

(* FALSE: that an address covered by an FDE is found when the range of the FDE ends at 2^64: the end is
   computed modulo 2^64 and the FDE is taken for an empty one. *)
Definition top_mem : bytes :=
  [20; 0; 0; 0; 0; 0; 0; 0; 1; 122; 82; 0; 1; 120; 16; 1; 11; 12; 7; 8; 144; 1; 0; 0] ++
  [16; 0; 0; 0; 28; 0; 0; 0; 224; 255; 255; 255; 32; 0; 0; 0; 0; 65; 14; 16].
Theorem C60_top_refuted : exists c ptr s e, next_cfi c 24 = Ok (NEntry 44 (EFde ptr s e)) /\
  ptr_encodes c 11 s (two64 - 32) (zsub (c_mem c) s 4) /\ fmt_encodes c 11 32 (zsub (c_mem c) (s + 4) 4) /\
  exists h, lookups c None cache0 [two64 - 1] = Ok ([inr 37], h).
Proof.
  pose (c := Cfi top_mem 44 true false true 4096 0 0). exists c, 0, 32, 44. split; [vm_compute; reflexivity|].
  split; [exists 0, 11, 0, (-32); split; [reflexivity|split; [apply B_abs|split; [apply (F_s4 c (-32)); lia|reflexivity]]]|].
  split; [apply (F_s4 c 32); lia|]. eexists. vm_compute. reflexivity.
Qed.
Print Assumptions C60_top_refuted.

(* FALSE: that a failing lookup sets an error.  With a search table whose entry is an FDE with an empty range
   the lookup fails with the error code 0, "no error". *)
Definition empty_mem : bytes :=
  [20; 0; 0; 0; 0; 0; 0; 0; 1; 122; 82; 0; 1; 120; 16; 1; 27; 12; 7; 8; 144; 1; 0; 0] ++
  [16; 0; 0; 0; 28; 0; 0; 0; 0; 16; 0; 0; 0; 0; 0; 0; 0; 65; 14; 16] ++ [0; 0; 0; 0].
Theorem C60_noerror_refuted : exists c t h, eh_table c ex_hdr 2048 = Ok (Some (Some t)) /\ zlen (c_mem c) = c_dsize c /\
  lookups c (Some t) cache0 [8224] = Ok ([inr 0], h).
Proof. exists (Cfi empty_mem 48 true false true 4096 0 0). exists (Table [32; 24; 0; 0; 24; 8; 0; 0] 20 2048 1 59). eexists. split; [vm_compute; reflexivity|]. split; [reflexivity|]. vm_compute. reflexivity. Qed.
Print Assumptions C60_noerror_refuted.
