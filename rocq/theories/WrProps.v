(* C29 and C56: what elf_update writes. *)
From Verif Require Import Base WrModel WrSpec WrProof Wr2Proof Wr3Proof.
From Coq Require Import Sorted Permutation ZifyBool.

(* ---------------- a file ---------------- *)
Definition xb (o : Z) (l : bytes) := Wb 0 o l true.
Definition x_scns : list wscn :=
  [Ws 0 0 0 0 false true None (repeat 10 64); Ws 1 1 128 10 true true (Some [xb 0 [1; 2; 3; 4]; xb 8 [5; 6]]) (repeat 11 64); Ws 2 8 138 100 true true None (repeat 12 64); Ws 3 3 144 3 true true (Some [xb 0 [7; 8; 0]]) (repeat 13 64)].
Definition x_file : wfile := Wf true true true (repeat 20 64) 64 64 (Some (repeat 21 56)) 152 64 x_scns None 0.
(* the bytes at some places of the resulting file *)
Definition peek (r : outcome (store * wfile)) (qs : list Z) : option (list Z) := match r with Ok (f, _) => Some (map f qs) | _ => None end.
Definition peekm (r : outcome store) (qs : list Z) : option (list Z) := match r with Ok f => Some (map f qs) | _ => None end.
Lemma x_placed : placed x_file.
Proof.
  split; cbn; try lia; try reflexivity.
  - repeat (constructor; [cbn; intro; try discriminate; repeat split; try discriminate; try lia; vm_compute; discriminate|]). constructor.
  - unfold x_scns. cbn. constructor; [constructor; [left; cbn; lia|constructor]|]. constructor; constructor.
  - split; [lia|]. repeat (constructor; [cbn; intro; try discriminate; right; cbn; lia|]). constructor.
  - intros i s H. unfold znth, x_scns in H. destruct ((0 <=? i) && (i <? zlen _)) eqn:R; [|discriminate]. unfold zlen in R. cbn in R. assert (I : i = 0 \/ i = 1 \/ i = 2 \/ i = 3) by lia. destruct I as [-> | [-> | [-> | ->]]]; cbn in H; injection H as <-; reflexivity.
  - repeat (constructor; [reflexivity|]). constructor.
  - repeat (constructor; [cbn; intro; try reflexivity; discriminate|]). constructor.
Qed.

(* C29.  Writing (with pwrite) puts every changed header, program header table, data block and section header at its place, in the byte order of the file, leaves the unchanged ones alone, fills the gaps with the fill byte, and touches nothing behind the end of the file.
   Missing: files inside archives (start offset 0 only), layouts where the program headers lie behind a section, and the layouts of the refutations below. *)
Theorem C29_written_partial : forall byte bo cv junk w f, (forall t b, zlen (cv t b) = zlen b) -> zlen junk = 4096 -> placed w -> f_start w = 0 ->
  (f_dirty w || existsb v_sflag (f_scns w) = false -> table_last w) ->
  exists f', updatefile byte bo cv junk w f = Ok (f', cleared w) /\
             file_is byte (f_dirty w && all_data w) 0 (file_end w) (pieces (if bo then cv else fun _ b => b) (fun _ => f_dirty w || existsb v_sflag (f_scns w)) w) f f'.
Proof.
  intros byte bo cv junk w f CL ZJ P S0 TL. destruct (updatefile_ok byte bo cv CL w P f junk ZJ S0 TL) as (f' & E & F). exists f'. split; [exact E|]. rewrite S0 in F. destruct bo; exact F.
Qed.
Print Assumptions C29_written_partial.
Example C29_written_partial_nonvacuous : (forall t b, zlen ((fun (_ : Z) (b : bytes) => b) t b) = zlen b) /\ placed x_file /\ f_start x_file = 0 /\
  peek (updatefile 99 false (fun _ b => b) (repeat 0 4096) x_file (fun _ => -1)) [0; 64; 127; 128; 132; 136; 140; 144; 148; 152; 344; 408] = Some [20; 21; 99; 1; 99; 5; 99; 7; 99; 10; 13; -1].
Proof. split; [reflexivity|]. split; [apply x_placed|]. split; [reflexivity|]. vm_compute. reflexivity. Qed.

(* C29.  The same for a mapped file, also inside an archive, when the section header table comes last and the mapping is large enough. *)
Theorem C29_mmap_partial : forall byte bo cv max w f, (forall t b, zlen (cv t b) = zlen b) -> placed w -> table_last w -> file_end w <= max ->
  exists f', updatemmap byte bo cv max w f = Ok f' /\
             file_is byte (f_dirty w && all_data w) (f_start w) (file_end w) (pieces (if bo then cv else fun _ b => b) (fun s => v_sflag s || f_dirty w) w) f f'.
Proof.
  intros byte bo cv max w f CL P TL FE. destruct (updatemmap_ok byte bo cv CL w P TL max FE f) as (f' & E & F). exists f'. split; [exact E|]. destruct bo; exact F.
Qed.
Print Assumptions C29_mmap_partial.
Lemma x_last : table_last x_file.
Proof. unfold table_last. repeat (constructor; [cbn; intro; try discriminate; lia|]). constructor. Qed.
Example C29_mmap_partial_nonvacuous : placed x_file /\ table_last x_file /\ file_end x_file <= 408 /\
  peekm (updatemmap 99 false (fun _ b => b) 408 x_file (fun _ => -1)) [0; 64; 127; 128; 132; 136; 140; 144; 148; 152; 344; 408] = Some [20; 21; 99; 1; 99; 5; 99; 7; 99; 10; 13; -1].
Proof. split; [apply x_placed|]. split; [apply x_last|]. split; [vm_compute; discriminate|]. vm_compute. reflexivity. Qed.

(* C29.  When everything is rewritten, each byte of the file is determined: two files that differed before are the same afterwards, up to the end. *)
Theorem C29_determined_partial : forall byte bo cv junk junk' w f1 f2, (forall t b, zlen (cv t b) = zlen b) -> zlen junk = 4096 -> zlen junk' = 4096 -> placed w -> f_start w = 0 -> f_dirty w = true -> all_data w = true ->
  exists g1 g2, updatefile byte bo cv junk w f1 = Ok (g1, cleared w) /\ updatefile byte bo cv junk' w f2 = Ok (g2, cleared w) /\ forall q, 0 <= q < file_end w -> g1 q = g2 q.
Proof.
  intros byte bo cv junk junk' w f1 f2 CL J1 J2 P S0 D A.
  destruct (C29_written_partial byte bo cv junk w f1 CL J1 P S0 ltac:(rewrite D; discriminate)) as (g1 & E1 & A1 & _ & _ & D1).
  destruct (C29_written_partial byte bo cv junk' w f2 CL J2 P S0 ltac:(rewrite D; discriminate)) as (g2 & E2 & A2 & _ & _ & D2).
  exists g1, g2. split; [exact E1|]. split; [exact E2|]. intros q Q. rewrite D, A in *. cbn [orb andb] in *.
  set (ps := pieces (if bo then cv else fun _ b => b) (fun _ => true) w) in *.
  assert (NN : forall p n o, In (p, n, o) ps -> exists b, o = Some b /\ zlen b = n).
  { intros p n o I. assert (CV : forall t b, zlen ((if bo then cv else fun _ b => b) t b) = zlen b) by (intros; destruct bo; [apply CL|reflexivity]).
    unfold ps, pieces, head_pieces, scn_pieces, table_pieces, piece_if in I. rewrite D in I. rewrite !orb_true_r in I.
    repeat rewrite in_app_iff in I. destruct I as [[I | I] | [I | I]].
    - injection I as <- <- <-. eexists. split; [reflexivity|apply CV].
    - destruct (f_phdrs w); [|destruct I]. destruct I as [I | []]. injection I as <- <- <-. eexists. split; [reflexivity|apply CV].
    - apply in_flat_map in I as (s & I1 & I2). destruct (stored s) eqn:ST; [|destruct I2]. unfold all_data in A. rewrite forallb_forall in A. specialize (A s I1). cbv beta in A. rewrite ST in A. destruct (v_data s) as [bs|]; [|discriminate].
      apply in_map_iff in I2 as (b & E & _). rewrite orb_true_r in E. injection E as <- <- <-. eexists. split; [reflexivity|apply CV].
    - apply in_map_iff in I as (s & E & _). injection E as <- <- <-. eexists. split; [reflexivity|apply CV]. }
  assert (DEC : (exists p n o, In (p, n, o) ps /\ p <= q < p + n) \/ (forall p n o, In (p, n, o) ps -> ~ (p <= q < p + n))).
  { clear. induction ps as [|((p, n), o) r IH]; [right; intros p n o []|]. destruct (Z_le_dec p q); [destruct (Z_lt_dec q (p + n))|].
    - left. exists p, n, o. split; [left; reflexivity|lia].
    - destruct IH as [(a & b & c & I & J) | IH]; [left; exists a, b, c; split; [right; exact I|exact J]|right]. intros a b c [E | I]; [injection E as <- <- <-; lia|eapply IH; eauto].
    - destruct IH as [(a & b & c & I & J) | IH]; [left; exists a, b, c; split; [right; exact I|exact J]|right]. intros a b c [E | I]; [injection E as <- <- <-; lia|eapply IH; eauto]. }
  destruct DEC as [(p & n & o & I & J) | N].
  - destruct (NN _ _ _ I) as (b & -> & L). specialize (A1 p n b (q - p) I ltac:(lia)). specialize (A2 p n b (q - p) I ltac:(lia)). replace (p + (q - p)) with q in * by lia. congruence.
  - destruct (D1 q Q N) as [-> | (X & _)]; [|discriminate]. destruct (D2 q Q N) as [-> | (X & _)]; [reflexivity|discriminate].
Qed.
Print Assumptions C29_determined_partial.
Example C29_determined_partial_nonvacuous : f_dirty x_file = true /\ all_data x_file = true /\ placed x_file /\ file_end x_file = 408.
Proof. split; [reflexivity|]. split; [reflexivity|]. split; [apply x_placed|vm_compute; reflexivity]. Qed.

(* ---------------- C29 fails ---------------- *)
Definition idc : Z -> bytes -> bytes := fun _ b => b.
Definition z0 : wscn := Ws 0 0 0 0 false true None (repeat 10 64).
Definition s1 (o n : Z) (l : list wblk) : wscn := Ws 1 1 o n true true (Some l) (repeat 11 64).
Definition s2 (o n : Z) (l : list wblk) : wscn := Ws 2 1 o n true true (Some l) (repeat 12 64).

(* Program headers behind a section are overwritten when the gap in which they lie is filled: ELF header [0, 64), section 1 [64, 72), program headers [72, 128), section 2 [136, 144), table from 144 on. *)
Theorem C29_phdr_refuted : exists w, f_dirty w = true /\ f_phoff w = 72 /\ f_phdrs w = Some (repeat 21 56) /\
  f_scns w = [z0; s1 64 8 [xb 0 (repeat 1 8)]; s2 136 8 [xb 0 (repeat 2 8)]] /\ f_shoff w = 144 /\
  peek (updatefile 99 false idc (repeat 0 4096) w (fun _ => -1)) [64; 72; 127; 136; 144] = Some [1; 99; 99; 2; 10] /\
  peekm (updatemmap 99 false idc 400 w (fun _ => -1)) [64; 72; 127; 136; 144] = Some [1; 99; 99; 2; 10].
Proof.
  exists (Wf true true true (repeat 20 64) 64 72 (Some (repeat 21 56)) 144 64 [z0; s1 64 8 [xb 0 (repeat 1 8)]; s2 136 8 [xb 0 (repeat 2 8)]] None 0).
  repeat (split; [reflexivity|]). split; vm_compute; reflexivity.
Qed.
Print Assumptions C29_phdr_refuted.

(* A section header table that is not written itself is overwritten with fill when a section behind it has been changed: section 1 [64, 72), table [72, 264), section 2 [264, 272). *)
Theorem C29_table_refuted : exists w, f_dirty w = false /\ placed w /\ f_shoff w = 72 /\ f_shent w = 64 /\ existsb v_sflag (f_scns w) = false /\ f_start w = 0 /\
  map (fun s => (v_off s, v_size s, v_data s)) (f_scns w) = [(0, 0, None); (64, 8, None); (272, 8, Some [xb 0 (repeat 2 8)])] /\
  peek (updatefile 99 false idc (repeat 0 4096) w (fun q => q)) [64; 71; 72; 263; 272] = Some [64; 71; 99; 99; 2].
Proof.
  exists (Wf false false false (repeat 20 64) 64 0 None 72 64 [Ws 0 0 0 0 false false None (repeat 10 64); Ws 1 1 64 8 false false None (repeat 11 64); Ws 2 1 272 8 true false (Some [xb 0 (repeat 2 8)]) (repeat 12 64)] None 0).
  split; [reflexivity|]. split.
  { split; cbn; try lia; try reflexivity; try exact Logic.I.
    - repeat (constructor; [cbn; intro; try discriminate; repeat split; try discriminate; try lia; vm_compute; discriminate|]). constructor.
    - constructor; [constructor; [left; cbn; lia|constructor]|]. constructor; constructor.
    - split; [lia|]. constructor; [cbn; intro; discriminate|]. constructor; [intros _; right; vm_compute; discriminate|]. constructor; [intros _; left; vm_compute; discriminate|constructor].
    - intros i s H. unfold znth in H. destruct ((0 <=? i) && (i <? zlen _)) eqn:R; [|discriminate]. unfold zlen in R. cbn in R. assert (I : i = 0 \/ i = 1 \/ i = 2) by lia. destruct I as [-> | [-> | ->]]; cbn in H; injection H as <-; reflexivity.
    - repeat (constructor; [reflexivity|]). constructor.
    - repeat (constructor; [cbn; intro; try reflexivity; discriminate|]). constructor. }
  repeat (split; [reflexivity|]). vm_compute. reflexivity.
Qed.
Print Assumptions C29_table_refuted.

(* The gap between two sections without data is not filled, although the whole file is rewritten: section 1, empty, at 64, section 2, empty, at 72. *)
Theorem C29_gap_refuted : exists w, f_dirty w = true /\ map (fun s => (v_off s, v_size s, v_data s)) (f_scns w) = [(0, 0, None); (64, 0, None); (72, 0, None)] /\ f_shoff w = 80 /\
  peek (updatefile 99 false idc (repeat 0 4096) w (fun _ => -1)) [63; 64; 71; 72; 79; 80] = Some [20; -1; -1; 99; 99; 10].
Proof.
  exists (Wf true true true (repeat 20 64) 64 0 None 80 64 [z0; Ws 1 1 64 0 true true None (repeat 11 64); Ws 2 1 72 0 true true None (repeat 12 64)] None 0).
  repeat (split; [reflexivity|]). vm_compute. reflexivity.
Qed.
Print Assumptions C29_gap_refuted.

(* A mapped file with the table before the sections: the gap between the table and the section behind it is not filled (first), and, worse, a gap between two buffers of a section overwrites the buffer before it (second). *)
Theorem C29_mmap_gap_refuted : exists w, f_dirty w = true /\ f_shoff w = 64 /\ f_scns w = [z0; s1 200 2 [xb 0 [1; 2]]] /\
  peekm (updatemmap 99 false idc 400 w (fun _ => -1)) [64; 191; 192; 199; 200] = Some [10; 11; -1; -1; 1].
Proof.
  exists (Wf true true true (repeat 20 64) 64 0 None 64 64 [z0; s1 200 2 [xb 0 [1; 2]]] None 0).
  repeat (split; [reflexivity|]). vm_compute. reflexivity.
Qed.
Print Assumptions C29_mmap_gap_refuted.
(* Mapped output: the section header table lies before a section with two buffers; the first buffer is overwritten with fill bytes. *)
Theorem C29_mmap_data_refuted : exists w, f_dirty w = true /\ f_shoff w = 64 /\ f_scns w = [z0; s1 192 16 [xb 0 [1; 2]; xb 8 [3; 4]]] /\
  peekm (updatemmap 99 false idc 400 w (fun _ => -1)) [192; 193; 194; 200; 201] = Some [99; 99; 99; 3; 4].
Proof.
  exists (Wf true true true (repeat 20 64) 64 0 None 64 64 [z0; s1 192 16 [xb 0 [1; 2]; xb 8 [3; 4]]] None 0).
  repeat (split; [reflexivity|]). vm_compute. reflexivity.
Qed.
Print Assumptions C29_mmap_data_refuted.

(* The ELF header of a member of an archive (start offset 1000) is written at the beginning of the archive. *)
Theorem C29_member_refuted : exists w, f_start w = 1000 /\ f_dirty w = true /\ peek (updatefile 99 false idc (repeat 0 4096) w (fun _ => -1)) [0; 63; 1000; 1063; 1064] = Some [20; 20; -1; -1; -1].
Proof.
  exists (Wf true true true (repeat 20 64) 64 0 None 0 64 [] None 1000).
  repeat (split; [reflexivity|]). vm_compute. reflexivity.
Qed.
Print Assumptions C29_member_refuted.

(* A section added to an existing file under a layout chosen by the user: the array of the old section headers is read beyond its end. *)
Theorem C29_newscn_refuted : exists w, f_dirty w = false /\ f_arr w = Some (repeat 10 64 ++ repeat 11 64) /\ zlen (f_scns w) = 3 /\ updatefile 99 false idc (repeat 0 4096) w (fun _ => -1) = UB.
Proof.
  exists (Wf false true false (repeat 20 64) 64 0 None 80 64 [Ws 0 0 0 0 false false None (repeat 10 64); Ws 1 1 64 8 false false None (repeat 11 64); s2 72 8 [xb 0 (repeat 2 8)]] (Some (repeat 10 64 ++ repeat 11 64)) 0).
  repeat (split; [reflexivity|]). vm_compute. reflexivity.
Qed.
Print Assumptions C29_newscn_refuted.

(* ---------------- C56 ---------------- *)
Lemma clean_blocks byte bo cv w s start : f_dirty w = false -> v_flag s = false -> forall bs f fs last ch, Forall (fun b => w_dirty b = false) bs ->
  exists last', write_blocks byte bo cv w s start bs (Wst f fs last false) ch = Ok (Wst f fs last' false, ch).
Proof.
  intros D V. induction bs as [|b r IH]; intros f fs last ch F; [exists last; reflexivity|]. inversion F as [|? ? F1 F2]; subst. cbn [write_blocks x_last x_f x_fill x_prev]. cbv zeta. rewrite D, V, F1. cbn [orb andb]. rewrite andb_false_r. cbn [obind].
  rewrite orb_false_r. apply IH. exact F2.
Qed.
Lemma clean_scns byte bo cv w : f_dirty w = false -> forall l f fs last, Forall (fun s => v_flag s = false /\ v_sflag s = false /\ (stored s = true -> match v_data s with Some bs => Forall (fun b => w_dirty b = false) bs | None => True end)) l ->
  exists last', write_scns byte bo cv w l (Wst f fs last false) = Ok (Wst f fs last' false).
Proof.
  intros D. induction l as [|s r IH]; intros f fs last F; [exists last; reflexivity|]. inversion F as [|? ? (F1 & F2 & F3) F4]; subst. cbn [write_scns]. unfold write_scn. rewrite F1.
  destruct (v_index s =? 0) eqn:Z0; [cbn [obind]; apply IH; exact F4|]. destruct (v_type s =? SHT_NOBITS) eqn:NB; [cbn [obind]; apply IH; exact F4|].
  specialize (F3 ltac:(unfold stored; rewrite Z0; unfold SHT_NOBITS in NB; rewrite NB; reflexivity)). cbv zeta. destruct (v_data s) as [bs|].
  - destruct (clean_blocks byte bo cv w s (f_start w + v_off s) D F1 bs f fs last false F3) as (last' & E). rewrite E. cbn [obind x_f x_fill x_last]. apply IH. exact F4.
  - cbn [x_last x_prev x_f x_fill]. rewrite andb_false_r. cbn [obind]. apply IH. exact F4.
Qed.
(* C56.  Writing a file in which nothing is marked as changed leaves it as it is. *)
Theorem C56_clean : forall byte bo cv junk w f, clean w -> updatefile byte bo cv junk w f = Ok (f, cleared w).
Proof.
  intros byte bo cv junk w f (D & E & PD & F). unfold updatefile. rewrite D, E. cbn [orb andb]. cbv zeta.
  assert (H : (match f_phdrs w with Some ph => if f_pdirty w || false then ' (f, fs) <- (if f_ehsize w <? f_phoff w then fill byte f (f_ehsize w) (f_phoff w - f_ehsize w) (junk, 0) else Ok (f, (junk, 0))) ;; Ok (put f (f_phoff w) (conv bo cv T_PHDR ph), fs, true) else Ok (f, (junk, 0), false) | None => Ok (f, (junk, 0), false) end) = Ok (f, (junk, 0), false)).
  { destruct PD as [-> | ->]; [|reflexivity]. destruct (f_phdrs w); reflexivity. }
  rewrite H. cbn [obind]. destruct (f_scns w) as [|s0 r0] eqn:SC; [reflexivity|]. rewrite <- SC in *.
  destruct (clean_scns byte bo cv w D (sort_scns (f_scns w)) f (junk, 0) (match f_phdrs w with None => zlen (f_eimg w) | Some ph => f_phoff w + zlen ph end) (Permutation_Forall (sort_perm _) F)) as (last' & E2). rewrite E2. cbn [obind x_f x_fill].
  assert (NS : existsb v_sflag (f_scns w) = false). { clear - F. induction F as [|s r (_ & H & _) F IH]; [reflexivity|]. cbn. rewrite H, IH. reflexivity. }
  rewrite NS. reflexivity.
Qed.
Print Assumptions C56_clean.
Definition c_file : wfile := Wf false false false (repeat 20 64) 64 64 (Some (repeat 21 56)) 152 64
  [Ws 0 0 0 0 false false None (repeat 10 64); Ws 1 1 128 10 false false (Some [Wb 0 0 [1; 2; 3; 4] false]) (repeat 11 64); Ws 2 3 144 3 false false None (repeat 13 64)] (Some (repeat 10 64 ++ repeat 11 64 ++ repeat 13 64)) 0.
Lemma c_clean : clean c_file.
Proof. split; [reflexivity|]. split; [reflexivity|]. split; [left; reflexivity|]. cbn. repeat (constructor; [split; [reflexivity|split; [reflexivity|]]; intro; try exact Logic.I; repeat constructor|]). constructor. Qed.
Example C56_clean_nonvacuous : clean c_file.
Proof. apply c_clean. Qed.

(* C56.  After a successful write, writing again changes nothing (unless a whole section has been marked as changed: that mark stays). *)
Theorem C56_again : forall byte bo cv junk junk' w f f' w', Forall (fun s => v_flag s = false) (f_scns w) -> updatefile byte bo cv junk w f = Ok (f', w') -> updatefile byte bo cv junk' w' f' = Ok (f', cleared w').
Proof.
  intros byte bo cv junk junk' w f f' w' V E. apply C56_clean. assert (EW : w' = cleared w).
  { unfold updatefile in E. cbv zeta in E. match type of E with obind ?x _ = _ => destruct x as [((a, b), c)| | |]; cbn [obind] in E; try discriminate end.
    destruct (f_scns w); [congruence|]. match type of E with obind ?x _ = _ => destruct x; cbn [obind] in E; try discriminate end. match type of E with obind ?x _ = _ => destruct x as [(a2, b2)| | |]; cbn [obind] in E; try discriminate end.
    match type of E with obind ?x _ = _ => destruct x; cbn [obind] in E; try discriminate end. congruence. }
  subst w'. split; [reflexivity|]. split; [reflexivity|]. cbn [cleared f_pdirty f_phdrs f_scns]. split.
  - destruct (f_phdrs w); [|right; reflexivity]. left. destruct (f_pdirty w) eqn:PD; cbn [orb]; [reflexivity|]. destruct (f_dirty w); reflexivity.
  - rewrite Forall_map. eapply Forall_impl; [|exact V]. intros s H. cbn beta in *. cbn [v_flag v_sflag]. split; [exact H|]. split; [reflexivity|]. unfold stored. cbn [v_index v_type v_data]. intro ST.
    destruct (v_index s =? 0); [discriminate|]. unfold SHT_NOBITS. destruct (v_type s =? 8); [discriminate|]. cbn [orb]. destruct (v_data s) as [bs|]; [|exact Logic.I]. cbn [option_map]. rewrite Forall_map. apply Forall_forall. intros; reflexivity.
Qed.
Print Assumptions C56_again.
Example C56_again_nonvacuous : Forall (fun s => v_flag s = false) (f_scns c_file) /\ peek (updatefile 99 false idc (repeat 0 4096) (Wf true true true (f_eimg c_file) 64 64 (f_phdrs c_file) 152 64 (f_scns c_file) None 0) (fun _ => -1)) [0; 128; 344] = Some [20; 1; -1].
Proof. split; [repeat constructor|vm_compute; reflexivity]. Qed.

(* C56 fails for a mapped file: bytes between the sections are overwritten with fill although nothing has been changed.  Section 1 [128, 138) has its data in memory; the bytes [120, 128) before it belong to no section. *)
Theorem C56_mmap_refuted : exists w, clean w /\ peekm (updatemmap 99 false idc 400 w (fun q => q)) [119; 120; 127; 128; 137] = Some [119; 99; 99; 128; 137].
Proof. exists c_file. split; [apply c_clean|]. vm_compute. reflexivity. Qed.
Print Assumptions C56_mmap_refuted.

(* C56.  But the headers, the sections' data and the section headers of a mapped file stay as they are. *)
Theorem C56_mmap_partial : forall byte bo cv max w f, (forall t b, zlen (cv t b) = zlen b) -> clean w -> placed w -> table_last w -> file_end w <= max ->
  exists f', updatemmap byte bo cv max w f = Ok f' /\ (forall cv' ch p n o q, In (p, n, o) (pieces cv' ch w) -> p <= q < p + n -> f' q = f q) /\ (forall q, q < f_start w \/ file_end w <= q -> f' q = f q).
Proof.
  intros byte bo cv max w f CL C P TL FE. destruct (C29_mmap_partial byte bo cv max w f CL P TL FE) as (f' & E & _ & B & O & _). exists f'. split; [exact E|]. split; [|exact O].
  intros cv' ch p n o q I Q. assert (X : In (p, n, None) (pieces (if bo then cv else fun _ b => b) (fun s => v_sflag s || f_dirty w) w)); [|eapply B; eauto].
  destruct C as (D & ED & PD & F). unfold pieces, head_pieces, scn_pieces, table_pieces, piece_if in *. repeat rewrite in_app_iff in *. rewrite D, ED in *. cbn [orb] in *. destruct I as [[I | I] | [I | I]].
  - left. left. injection I as <- <- _. reflexivity.
  - left. right. destruct (f_phdrs w); [|destruct I]. destruct PD as [PD | PD]; [|discriminate]. rewrite PD. destruct I as [I | []]. injection I as <- <- _. left. reflexivity.
  - right. left. apply in_flat_map in I as (s & I1 & I2). apply in_flat_map. exists s. split; [exact I1|]. pose proof (proj1 (Forall_forall _ _) F s I1) as (F1 & F2 & F3). destruct (stored s) eqn:ST; [|destruct I2]. specialize (F3 eq_refl). destruct (v_data s) as [bs|].
    + apply in_map_iff in I2 as (b & EB & I3). apply in_map_iff. exists b. split; [|exact I3]. pose proof (proj1 (Forall_forall _ _) F3 b I3) as WD. cbn beta in WD. rewrite F1, WD. cbn [orb]. injection EB as <- <- _. reflexivity.
    + destruct I2 as [I2 | []]. injection I2 as <- <- _. left. reflexivity.
  - right. right. apply in_map_iff in I as (s & EB & I). apply in_map_iff. exists s. split; [|exact I]. pose proof (proj1 (Forall_forall _ _) F s I) as (_ & F2 & _). rewrite F2. cbn [orb]. injection EB as <- <- _. reflexivity.
Qed.
Print Assumptions C56_mmap_partial.
Example C56_mmap_partial_nonvacuous : clean c_file /\ file_end c_file = 344 /\ peekm (updatemmap 99 false idc 344 c_file (fun q => q)) [0; 64; 128; 131; 144; 152; 343] = Some [0; 64; 128; 131; 144; 152; 343].
Proof. split; [apply c_clean|]. split; vm_compute; reflexivity. Qed.
