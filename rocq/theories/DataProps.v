(* Section data: elf_getdata, elf_rawdata, elf_getdata_rawchunk (C17), elf_strptr
   (C16) and elf_compress (C40). *)
From Verif Require Import Base ElfErr XlateModel XlateSpec DataModel DataSpec DataProof DataZProof.

(* ------------------------------------------------------------------ *)
(* A compressor for the examples: up to 255 zeros become a count, everything else
   is one pair per byte. *)
Fixpoint lits (b : bytes) : bytes := match b with [] => [0] | x :: r => 1 :: x :: lits r end.
Fixpoint unlits (c : bytes) (room : Z) : option (bytes * bytes) :=
  if room <? 0 then None else
  match c with
  | t :: c => if t =? 0 then Some ([], c)
              else match c with
                   | x :: c => match unlits c (room - 1) with
                               | Some (o, rest) => Some (x :: o, rest)
                               | None => None
                               end
                   | [] => None
                   end
  | [] => None
  end.
Definition toy := ZLib
  (fun b => if forallb (Z.eqb 0) b && (zlen b <? 256) then [2; zlen b] else lits b)
  (fun c room => match c with
                 | t :: n :: rest => if t =? 2 then (if (n <? 0) || (room <? n) then None
                                                     else Some (repeat 0 (Z.to_nat n), rest))
                                     else unlits c room
                 | _ => unlits c room
                 end).

Lemma unlits_safe : forall k c room o rest, (length c <= k)%nat -> unlits c room = Some (o, rest) ->
  zlen o <= room /\ (length rest < length c)%nat.
Proof.
  unfold zlen. induction k as [|k IH]; intros c room o rest L E.
  - destruct c; [cbn in E; destruct (room <? 0); discriminate|cbn [length] in L; lia].
  - destruct c as [|t c]; cbn [unlits] in E; destruct (room <? 0) eqn:R; try discriminate.
    destruct (t =? 0); [injection E as <- <-; cbn [length]; lia|].
    destruct c as [|x c]; [discriminate|]. destruct (unlits c (room - 1)) as [[o' r']|] eqn:U; [|discriminate].
    injection E as <- <-. cbn [length] in *. destruct (IH c (room - 1) o' r' ltac:(lia) U). lia.
Qed.
Lemma toy_safe : z_safe toy.
Proof.
  unfold z_safe, toy. cbn [z_infl]. intros inp room o rest E. destruct inp as [|t [|n inp]];
    try exact (unlits_safe _ _ _ _ _ (le_n _) E).
  destruct (t =? 2); [|exact (unlits_safe _ _ _ _ _ (le_n _) E)].
  destruct ((n <? 0) || (room <? n)) eqn:B; [discriminate|]. injection E as <- <-.
  unfold zlen. rewrite repeat_length. cbn [length]. lia.
Qed.
Lemma lits_len : forall b, zlen (lits b) = 2 * zlen b + 1.
Proof. unfold zlen. induction b as [|x b IH]; [reflexivity|]. cbn [lits length]. lia. Qed.
Lemma unlits_lits : forall b room, zlen b <= room -> unlits (lits b) room = Some (b, []).
Proof.
  unfold zlen. induction b as [|x b IH]; intros room L; cbn [lits unlits length] in *.
  - replace (room <? 0) with false by lia. reflexivity.
  - replace (room <? 0) with false by lia. change (1 =? 0) with false. cbn match. rewrite IH by lia. reflexivity.
Qed.
Lemma toy_lossless : z_lossless toy.
Proof.
  unfold z_lossless, toy. cbn [z_defl z_infl]. intros b B. pose proof (zlen_nonneg _ b) as LN.
  destruct (forallb (Z.eqb 0) b && (zlen b <? 256)) eqn:E.
  - apply andb_prop in E. destruct E as [E L]. split; [discriminate|]. split; [change (zlen [2; zlen b]) with 2; lia|].
    split; [repeat constructor; lia|]. intros room R. change (2 =? 2) with true. cbn match.
    replace ((zlen b <? 0) || (room <? zlen b)) with false by lia. do 2 f_equal.
    unfold zlen. rewrite Nat2Z.id. rewrite forallb_forall in E. symmetry. apply Forall_eq_repeat.
    apply Forall_forall. intros x I. specialize (E x I). lia.
  - pose proof (lits_len b). split; [destruct b; discriminate|]. split; [lia|].
    split.
    { clear E H LN. induction b as [|x b IH]; [repeat constructor; lia|]. cbn [lits].
      pose proof (Forall_inv B). constructor; [unfold is_u8; lia|]. constructor; [assumption|]. apply IH. exact (Forall_inv_tail B). }
    intros room R. pose proof (unlits_lits b room R) as U. destruct b; exact U.
Qed.

Lemma Forall2_weaken : forall A B (P Q : A -> B -> Prop) l l', (forall a b, P a b -> Q a b) -> Forall2 P l l' -> Forall2 Q l l'.
Proof. intros A B P Q l l' H F. induction F; constructor; auto. Qed.

Definition j0 : Z -> Z := fun _ => 170.
Definition e1 := Env true true j0.
(* A mapped big-endian file on a little-endian host, of class 64. *)
Definition img1 : bytes := [127; 69; 76; 70; 0; 97; 98; 0; 99; 0; 0; 0; 0; 0; 0; 0; 0; 0; 0; 0; 0; 0; 0; 0; 0; 0; 0; 0; 0; 0; 0; 0; 0; 0; 0; 0; 0; 0; 0; 0; 0; 0; 0; 0; 0; 0; 0; 0; 0; 0; 0; 0; 0; 0; 0; 0; 0; 0; 0; 0; 0; 0; 1; 2].
Definition f1 := EFile true true img1 0 64 true true false 4 1.
Definition f1n := EFile true true img1 0 64 true true true 4 1.
Lemma f1_ok : file_ok f1 /\ file_ok f1n.
Proof.
  split; (unfold file_ok; cbn [f_start f_max f_img f_map f_fd f_hashent f1 f1n];
  repeat split; try lia; try (left; reflexivity); try (vm_compute; discriminate); repeat constructor; lia).
Qed.
Definition hstr := Shdr 3 0 4 5 1.        (* string table: 0 a b 0 c *)
Definition hwords := Shdr 17 0 56 8 4.    (* section group: two words *)
Definition hdbg := Shdr 1 0 9 50 1.       (* data, all zero *)

(* ================================================================== *)
(* C17 *)

(* Any sequence of elf_rawdata, elf_getdata and elf_strptr calls on a section of an
   opened file, while memory lasts: each call delivers exactly what the section
   header says (good: the bytes of the file, or those bytes in host order, with the
   header's size and type), or fails with an error because the header does not name
   whole records inside the file.  Not covered: contents of variable layout in a
   file of foreign byte order (notes, version definitions, GNU hash tables of class
   64), see C19-C21 for their conversion, and failing allocations (below). *)
Theorem C17_history_partial :
  forall z f h pre i ops s0, file_ok f -> hdr_ok h -> convertible f h -> z_safe z ->
    Forall (fun p => e_al (fst p) = true /\ off_ok (snd p)) ops ->
    open_sec f pre i h = Ok s0 ->
    exists s obs, rrun z f ops s0 = Ok (s, obs) /\ Forall2 (fun p ob => good f h (snd p) ob) ops obs.
Proof.
  intros z f h pre i ops s0 F H CV ZS A O. destruct (open_sec_inv true f pre i h F H) as (s & E & I).
  rewrite E in O. injection O as <-.
  destruct (rrun_inv true z f h F H CV ZS ops s) as (s' & obs & R & _ & _ & G); [|exact I|eauto].
  eapply Forall_impl; [|exact A]. cbn beta. tauto.
Qed.
Print Assumptions C17_history_partial.

Example C17_history_nonvacuous :
  file_ok f1 /\ hdr_ok hwords /\ convertible f1 hwords /\ z_safe toy /\ deliverable f1 hwords /\
  exists s0, open_sec f1 true 1 hwords = Ok s0 /\
  match rrun toy f1 [(e1, ORaw); (e1, OGet)] s0 with
  | Ok (_, [ObData a; ObData b]) => Some (ed_buf a, ed_buf b, ed_type b, ed_size b)
  | _ => None end = Some (Some [0; 0; 0; 0; 0; 0; 1; 2], Some [0; 0; 0; 0; 2; 1; 0; 0], 12, 8).
Proof.
  split; [apply f1_ok|]. split; [vm_compute; repeat split; congruence|].
  split; [intros _ _; vm_compute; discriminate|]. split; [apply toy_safe|].
  split; [intros _; split; [reflexivity|vm_compute; discriminate]|].
  eexists. split; [vm_compute; reflexivity|]. vm_compute. reflexivity.
Qed.
(* a section that ends behind the file *)
Example C17_history_nonvacuous_refused :
  ~ deliverable f1 (Shdr 1 0 56 9 1) /\
  exists s0, open_sec f1 true 1 (Shdr 1 0 56 9 1) = Ok s0 /\
  match rrun toy f1 [(e1, ORaw); (e1, OGet)] s0 with Ok (_, o) => Some o | _ => None end
  = Some [ObNone (Some ELF_E_INVALID_SECTION_HEADER); ObNone (Some ELF_E_INVALID_SECTION_HEADER)].
Proof.
  split. { intros H. destruct (H eq_refl) as [_ X]. vm_compute in X. congruence. }
  eexists. split; [vm_compute; reflexivity|]. vm_compute. reflexivity.
Qed.

(* When allocations may fail as well, every call still delivers the section's own
   bytes or an error - except that elf_getdata may deliver an empty record. *)
Theorem C17_history_nomem_partial :
  forall z f h pre i ops s0, file_ok f -> hdr_ok h -> convertible f h -> z_safe z ->
    Forall (fun p => off_ok (snd p)) ops -> open_sec f pre i h = Ok s0 ->
    exists s obs, rrun z f ops s0 = Ok (s, obs) /\
      Forall2 (fun p ob => match snd p, ob with
        | ORaw, ObData d => deliverable f h /\ ed_size d = sh_size h /\
                            (has_data h = true -> ed_buf d = Some (section_bytes f h))
        | OGet, ObData d => deliverable f h /\
            (ed_size d = sh_size h /\ (has_data h = true -> ed_buf d = host_bytes f h) \/ d = EDat None 0 0 0 0 0)
        | ORaw, ObNone e | OGet, ObNone e => e <> None
        | OStr o, ObStr b p => p = o /\ terminated b o /\ (compressed h = false -> b = section_bytes f h)
        | OStr o, ObNoStr _ => True
        | _, _ => False
        end) ops obs.
Proof.
  intros z f h pre i ops s0 F H CV ZS A O. destruct (open_sec_inv false f pre i h F H) as (s & E & I).
  rewrite E in O. injection O as <-.
  destruct (rrun_inv false z f h F H CV ZS ops s) as (s' & obs & R & _ & W & _); [|exact I|].
  { eapply Forall_impl; [|exact A]. cbn beta. intros p X. split; [discriminate|exact X]. }
  exists s', obs. split; [exact R|]. eapply Forall2_weaken; [|exact W]. cbn beta.
  intros [e op] ob. cbn [snd]. unfold weak. destruct op, ob; try tauto.
  - intros (D & B1 & B2 & B3 & _). split; [exact D|]. split; [exact B3|]. intros HD. rewrite B1, HD. reflexivity.
  - intros (n & ->). discriminate.
  - intros (D & [(B1 & B2 & B3 & _)|X]); (split; [exact D|]); [left|right; exact X].
    split; [exact B3|]. intros HD. rewrite B1, HD. reflexivity.
  - intros (n & ->). discriminate.
Qed.
Print Assumptions C17_history_nomem_partial.

(* The exception is real: memory runs out while a section is converted, and
   elf_getdata succeeds with an empty record; so it does ever after. *)
Theorem C17_getdata_nomem_refuted :
  exists f h s0 e, file_ok f /\ hdr_ok h /\ deliverable f h /\ sh_size h = 8 /\ open_sec f true 1 h = Ok s0 /\ e_al e = false /\
    match rrun toy f [(e, OGet); (e1, OGet)] s0 with Ok (_, o) => Some o | _ => None end
    = Some [ObData (EDat None 0 0 0 0 0); ObData (EDat None 0 0 0 0 0)].
Proof.
  exists f1, hwords. eexists. exists (Env false true j0). split; [apply f1_ok|].
  split; [vm_compute; repeat split; congruence|]. split; [intros _; split; [reflexivity|vm_compute; discriminate]|].
  split; [reflexivity|]. split; [vm_compute; reflexivity|]. split; [reflexivity|]. vm_compute. reflexivity.
Qed.
Print Assumptions C17_getdata_nomem_refuted.

(* elf_getdata_rawchunk: exactly the requested range, or an error. *)
Theorem C17_rawchunk_partial :
  forall al aligned junk f off size ty b, file_ok f -> 0 <= size ->
    (off < 0 \/ f_max f < off + size -> rawchunk al aligned junk f off size ty = Err ELF_E_INVALID_OP) /\
    (0 <= off -> off + size <= f_max f -> ty < 27 -> chunk_bytes f off size ty = Some b ->
       rawchunk al aligned junk f off size ty = Ok b \/
       (al = false /\ rawchunk al aligned junk f off size ty = Err ELF_E_NOMEM)).
Proof.
  intros al aligned junk f off size ty b F S. destruct (rawchunk_ok al aligned junk f off size ty b F S) as (A & _ & B).
  split; [exact A|]. intros H1 H2 H3 H4. destruct (B H1 H2 H3 H4) as [X|[X|[X Y]]]; auto.
  destruct F as (_ & _ & _ & _ & [Z|Z] & _); congruence.
Qed.
Print Assumptions C17_rawchunk_partial.

Example C17_rawchunk_nonvacuous :
  chunk_bytes f1 60 4 12 = Some [2; 1; 0; 0] /\ rawchunk true false j0 f1 60 4 12 = Ok [2; 1; 0; 0] /\
  rawchunk true true j0 f1n 60 4 12 = Ok [0; 0; 1; 2] /\ rawchunk true true j0 f1n 60 5 12 = Err ELF_E_INVALID_OP.
Proof. repeat split; vm_compute; reflexivity. Qed.

(* If the size is no multiple of the record size, part of what is delivered
   from a mapped file of foreign byte order is uninitialised memory. *)
Theorem C17_rawchunk_refuted :
  exists f off size ty j1 j2 b1 b2, file_ok f /\ 0 <= off /\ off + size <= f_max f /\
    rawchunk true true j1 f off size ty = Ok b1 /\ rawchunk true true j2 f off size ty = Ok b2 /\
    b1 <> b2 /\ j1 <> j2.
Proof.
  exists f1, 58, 6, 12, (fun _ => 0), (fun _ => 1), [0; 0; 2; 1; 0; 0], [1; 1; 2; 1; 0; 0].
  split; [apply f1_ok|]. split; [lia|]. split; [vm_compute; discriminate|].
  split; [vm_compute; reflexivity|]. split; [vm_compute; reflexivity|]. split; [discriminate|].
  intros X. pose proof (f_equal (fun g => g 0) X). discriminate.
Qed.
Print Assumptions C17_rawchunk_refuted.

(* ================================================================== *)
(* C16 *)

(* elf_strptr on a section of an opened file, after any calls on the section, also
   when memory runs out in between: no invalid access, and a result is the position
   asked for in a buffer with a NUL at or behind it; if the section is not
   compressed, the buffer is the section's bytes in the file. *)
Theorem C16_strptr_safe_partial :
  forall z f h pre i ops s0 e o, file_ok f -> hdr_ok h -> z_safe z -> sh_type h = 3 ->
    Forall (fun p => off_ok (snd p)) ops -> 0 <= o -> open_sec f pre i h = Ok s0 ->
    exists s obs s' r err, rrun z f ops s0 = Ok (s, obs) /\
      strptr (e_al e) (e_aligned e) (e_junk e) z f s o = Ok (s', (r, err)) /\
      (forall b p, r = Some (b, p) -> p = o /\ terminated b o /\
         (compressed h = false -> b = section_bytes f h /\ o < sh_size h)).
Proof.
  intros z f h pre i ops s0 e o F H ZS T A Ho O. destruct (open_sec_inv false f pre i h F H) as (s & E & I).
  rewrite E in O. injection O as <-.
  pose proof (strtab_convertible f h T) as CV.
  destruct (rrun_inv false z f h F H CV ZS ops s) as (s1 & obs & R & I1 & _); [|exact I|].
  { eapply Forall_impl; [|exact A]. cbn beta. intros p X. split; [discriminate|exact X]. }
  destruct (strptr_inv false (e_al e) (e_aligned e) (e_junk e) z f h s1 o F H CV ZS ltac:(discriminate) I1 Ho)
    as (s2 & r & err & X & _ & P & _).
  exists s1, obs, s2, r, err. split; [exact R|]. split; [exact X|]. intros b p Y.
  destruct (P b p Y) as (P1 & P2 & _ & P3). split; [exact P1|]. split; [exact P2|]. intros C.
  destruct (P3 C) as (Q1 & Q2 & _). auto.
Qed.
Print Assumptions C16_strptr_safe_partial.

(* Exactly which offsets succeed, while memory lasts. *)
Theorem C16_strptr_exact_partial :
  forall z f h pre i ops s0 e o, file_ok f -> hdr_ok h -> z_safe z -> sh_type h = 3 -> compressed h = false ->
    Forall (fun p => e_al (fst p) = true /\ off_ok (snd p)) ops -> 0 <= o -> e_al e = true ->
    open_sec f pre i h = Ok s0 ->
    exists s obs s' r err, rrun z f ops s0 = Ok (s, obs) /\
      strptr (e_al e) (e_aligned e) (e_junk e) z f s o = Ok (s', (r, err)) /\
      ((deliverable f h /\ o < sh_size h /\ terminated (section_bytes f h) o /\ r = Some (section_bytes f h, o)) \/
       ((~ deliverable f h \/ sh_size h <= o \/ ~ terminated (section_bytes f h) o) /\ r = None /\ err <> None)).
Proof.
  intros z f h pre i ops s0 e o F H ZS T C A Ho AL O. destruct (open_sec_inv true f pre i h F H) as (s & E & I).
  rewrite E in O. injection O as <-.
  pose proof (strtab_convertible f h T) as CV.
  destruct (rrun_inv true z f h F H CV ZS ops s) as (s1 & obs & R & I1 & _); [|exact I|].
  { eapply Forall_impl; [|exact A]. cbn beta. tauto. }
  destruct (strptr_inv true (e_al e) (e_aligned e) (e_junk e) z f h s1 o F H CV ZS (fun _ => AL) I1 Ho)
    as (s2 & r & err & X & _ & P & Q).
  exists s1, obs, s2, r, err. split; [exact R|]. split; [exact X|]. destruct r as [[b p]|].
  - left. destruct (P b p eq_refl) as (-> & P2 & _ & P3). destruct (P3 C) as (-> & P4 & P5). auto.
  - right. destruct (Q eq_refl eq_refl) as [(n & ->) Q2]. split; [exact (Q2 T C)|]. split; [reflexivity|discriminate].
Qed.
Print Assumptions C16_strptr_exact_partial.

Example C16_strptr_nonvacuous :
  hdr_ok hstr /\ deliverable f1 hstr /\
  exists s0, open_sec f1 true 1 hstr = Ok s0 /\
  match rrun toy f1 [(e1, OStr 1); (e1, OGet); (e1, OStr 1); (e1, OStr 4); (e1, OStr 5)] s0 with
  | Ok (_, [a; _; b; c; d]) => Some (a, b, c, d) | _ => None end
  = Some (ObStr [0; 97; 98; 0; 99] 1, ObStr [0; 97; 98; 0; 99] 1, ObNoStr (Some ELF_E_INVALID_INDEX), ObNoStr (Some ELF_E_OFFSET_RANGE)).
Proof.
  split; [vm_compute; repeat split; congruence|]. split; [intros _; split; [reflexivity|vm_compute; discriminate]|].
  eexists. split; [vm_compute; reflexivity|]. vm_compute. reflexivity.
Qed.

(* A string section given as a list of data records (elf_newdata). *)
Theorem C16_strptr_blocks_partial :
  forall al aligned junk z f s o,
    sh_type (s_hdr s) = 3 -> compressed (s_hdr s) = false -> s_read s = true -> s_rear s <> None -> s_zbase s = None ->
    Forall block_ok (blocks s) -> 0 <= o ->
    exists r e, strptr al aligned junk z f s o = Ok (s, (r, e)) /\
      (forall b p, r = Some (b, p) -> o < sh_size (s_hdr s) /\
         exists d, In d (blocks s) /\ covers d o /\ ed_buf d = Some b /\ p = o - ed_off d /\ terminated b p) /\
      (r = None -> sh_size (s_hdr s) <= o \/ (forall d, In d (blocks s) -> ~ covers d o) \/
         exists d b, In d (blocks s) /\ covers d o /\ ed_buf d = Some b /\ ~ terminated b (o - ed_off d)) /\
      (r = None -> e = None -> o < sh_size (s_hdr s) /\ forall d, In d (blocks s) -> ~ covers d o).
Proof. exact strptr_blocks. Qed.
Print Assumptions C16_strptr_blocks_partial.

Definition sblk := Sec 1 (Shdr 3 0 0 10 1) None edat0 true false (EDat (Some [0; 97; 0]) 0 3 0 1 1)
                     [EDat (Some [98; 0]) 0 2 8 1 1] (Some 1%nat) None 0 0.
Example C16_strptr_blocks_nonvacuous :
  Forall block_ok (blocks sblk) /\ strptr true true j0 toy f1 sblk 8 = Ok (sblk, (Some ([98; 0], 0), None)) /\
  strptr true true j0 toy f1 sblk 1 = Ok (sblk, (Some ([0; 97; 0], 1), None)).
Proof.
  split; [|split; vm_compute; reflexivity].
  unfold blocks, sblk, block_ok. cbn [s_first s_rest].
  repeat (constructor; [cbn [ed_off ed_size ed_buf]; repeat split; try lia; intros _; eexists; split; reflexivity|]).
  constructor.
Qed.

(* Between the records no error is set although NULL is returned. *)
Theorem C16_strptr_gap_refuted :
  exists s o, Forall block_ok (blocks s) /\ sh_type (s_hdr s) = 3 /\ 0 <= o /\
    strptr true true j0 toy f1 s o = Ok (s, (None, None)).
Proof. exists sblk, 5. split; [apply C16_strptr_blocks_nonvacuous|]. repeat split. lia. Qed.
Print Assumptions C16_strptr_gap_refuted.

(* A new section without data, whose header has a size: NULL is dereferenced. *)
Theorem C16_strptr_new_refuted :
  exists h o, hdr_ok h /\ sh_type h = 3 /\ 0 <= o /\ strptr true true j0 toy f1 (new_sec 1 h) o = UB.
Proof. exists (Shdr 3 0 0 4 1), 0. split; [vm_compute; repeat split; congruence|]. repeat split; lia. Qed.
Print Assumptions C16_strptr_new_refuted.

(* The size is taken from the header at every call: after the user enlarged it,
   memory behind the section's buffer is searched. *)
Theorem C16_strptr_enlarged_refuted :
  exists h h' s0 s1 d o, hdr_ok h /\ hdr_ok h' /\ deliverable f1 h /\ open_sec f1 true 1 h = Ok s0 /\
    rrun toy f1 [(e1, ORaw)] s0 = Ok (s1, [ObData d]) /\
    sh_type h' = 3 /\ 0 <= o < sh_size h' /\ strptr true true j0 toy f1 (set_hdr s1 h') o = UB.
Proof.
  exists hstr, (Shdr 3 0 4 100 1). eexists. eexists. eexists. exists 3.
  split; [vm_compute; repeat split; congruence|]. split; [vm_compute; repeat split; congruence|].
  split; [intros _; split; [reflexivity|vm_compute; discriminate]|].
  split; [vm_compute; reflexivity|]. split; [vm_compute; reflexivity|].
  split; [reflexivity|]. split; [vm_compute; split; congruence|]. vm_compute. reflexivity.
Qed.
Print Assumptions C16_strptr_enlarged_refuted.

(* A decompressed section that got another data record: the strings of the new
   record are looked for behind the decompressed buffer. *)
Definition with_block (s : sec) (d : edat) : sec :=
  Sec (s_index s) (s_hdr s) (s_rawbase s) (s_raw s) (s_read s) (s_file s) (s_first s) [d] (s_rear s)
      (s_zbase s) (s_zsize s) (s_zalign s).
(* After a section was decompressed and a block added to it, the offset is looked for in the decompressed data although it lies in the new block: memory behind the decompressed data is read. *)
Theorem C16_strptr_decompressed_refuted :
  exists h s0 s1 s2 s3 i d, hdr_ok h /\ deliverable f1n h /\ open_sec f1n true 1 h = Ok s0 /\
    elf_compress true true j0 toy f1n s0 1 1 = Ok (s1, inr 1) /\
    elf_compress true true j0 toy f1n s1 0 0 = Ok (s2, inr 1) /\
    newdata true true j0 f1n s2 = Ok (s3, RData i) /\
    let s4 := set_hdr (with_block s3 d) (Shdr 3 0 4 (5 + ed_size d) 1) in
    Forall block_ok (blocks s4) /\ covers d 5 /\ strptr true true j0 toy f1n s4 5 = UB.
Proof.
  exists hstr. do 5 eexists. exists (EDat (Some [100; 0]) 0 2 5 1 1).
  split; [vm_compute; repeat split; congruence|]. split; [intros _; split; [reflexivity|vm_compute; discriminate]|].
  split; [vm_compute; reflexivity|]. split; [vm_compute; reflexivity|]. split; [vm_compute; reflexivity|].
  split; [vm_compute; reflexivity|]. cbv zeta. split.
  - unfold blocks, block_ok. cbn [s_first s_rest set_hdr with_block].
    repeat (constructor; [cbn [ed_off ed_size ed_buf]; repeat split; try lia; intros _; eexists; split; reflexivity|]).
    constructor.
  - split; [vm_compute; split; congruence|]. vm_compute. reflexivity.
Qed.
Print Assumptions C16_strptr_decompressed_refuted.

(* ================================================================== *)
(* C40 *)

(* elf_compress (ELFCOMPRESS_ZLIB) and back, for a section of an opened file after
   any calls, with any lossless compressor: either the section is left alone since
   compression does not pay and was not forced, or it becomes a header and the
   compressed bytes, with SHF_COMPRESSED set, and decompressing restores data, type,
   flags, offset, size and the alignment recorded.  Below 4 GiB; alignments must be
   powers of two, and in class 32 the recorded alignment is that of the data
   (kept_align). *)
Theorem C40_roundtrip_partial :
  forall z f h hb pre i ops s0 s obs, file_ok f -> hdr_ok h -> compressible f h hb -> fits_class f h ->
    z_safe z -> z_lossless z -> pow2 (kept_align f h) ->
    chdr_size (f_c64 f) + zlen (z_defl z (section_bytes f h)) < two32 ->
    Forall (fun p => e_al (fst p) = true /\ off_ok (snd p)) ops ->
    open_sec f pre i h = Ok s0 -> rrun z f ops s0 = Ok (s, obs) ->
    forall aligned junk fl, fl = 0 \/ fl = 1 ->
    (exists s1, elf_compress true aligned junk z f s 1 fl = Ok (s1, inr 0) /\ fl = 0 /\ s_hdr s1 = h) \/
    (exists s1, elf_compress true aligned junk z f s 1 fl = Ok (s1, inr 1) /\
      let out := chdr_bytes f (sh_size h) (kept_align f h) ++ z_defl z (section_bytes f h) in
      s_hdr s1 = Shdr (sh_type h) (Z.lor (sh_flags h) 2048) (sh_offset h) (zlen out) 1 /\
      ed_buf (s_raw s1) = Some out /\ ed_size (s_raw s1) = zlen out /\
      (fl = 0 -> zlen out < sh_size h) /\
      forall aligned' junk' fl', fl' = 0 \/ fl' = 1 ->
      exists s2, elf_compress true aligned' junk' z f s1 0 fl' = Ok (s2, inr 1) /\
        s_hdr s2 = Shdr (sh_type h) (sh_flags h) (sh_offset h) (sh_size h) (kept_align f h) /\
        ed_buf (s_raw s2) = Some (section_bytes f h) /\ ed_size (s_raw s2) = sh_size h /\
        ed_buf (s_first s2) = Some hb /\ ed_size (s_first s2) = sh_size h /\ s_rest s2 = []).
Proof.
  intros z f h hb pre i ops s0 s obs F H CP FC ZS ZL PA L A O R aligned junk fl FL.
  destruct (open_sec_inv true f pre i h F H) as (s' & E & I). rewrite E in O. injection O as <-.
  assert (CV : convertible f h) by (intros _ _; rewrite (cp_host _ _ _ CP); discriminate).
  destruct (rrun_inv true z f h F H CV ZS ops s') as (s1 & obs' & R' & I1 & _); [|exact I|].
  { eapply Forall_impl; [|exact A]. cbn beta. tauto. }
  rewrite R in R'. injection R' as <- <-.
  destruct (elf_compress_roundtrip z f h hb s F H CP FC ZL PA L I1 aligned junk fl FL) as [(s2 & X1 & X2 & X3)|(s2 & X)].
  - left. exists s2. split; [exact X1|]. split; [exact X2|exact (ri_hdr _ _ _ _ X3)].
  - right. exists s2. destruct X as (X1 & X2 & X3 & X4 & X5 & X6 & X7). split; [exact X1|].
    split; [exact X2|]. split; [exact X3|]. split; [exact X4|]. split; [exact X5|].
    intros aligned' junk' fl' FL'. destruct (X7 aligned' junk' fl' FL') as (s3 & Y1 & Y2 & Y3 & Y4 & Y5 & Y6 & _ & _ & Y7).
    exists s3. repeat (split; [assumption|]). assumption.
Qed.
Print Assumptions C40_roundtrip_partial.

Lemma hdbg_ok : forall f, f = f1 \/ f = f1n -> compressible f hdbg (section_bytes f hdbg).
Proof.
  intros f [-> | ->]; constructor; try (vm_compute; reflexivity); try (vm_compute; split; congruence);
    (intros _; split; [reflexivity|vm_compute; discriminate]).
Qed.
(* 50 zeros in a foreign-endian file become 24 + 2 bytes, and come back. *)
Example C40_roundtrip_nonvacuous :
  compressible f1 hdbg (section_bytes f1 hdbg) /\ pow2 (kept_align f1 hdbg) /\ z_safe toy /\ z_lossless toy /\
  match (s0 <- open_sec f1 true 1 hdbg ;; ' (s1, r) <- elf_compress true true j0 toy f1 s0 1 0 ;;
         ' (s2, r2) <- elf_compress true true j0 toy f1 s1 0 0 ;;
         Ok (r, ed_buf (s_raw s1), r2, s_hdr s2, ed_buf (s_first s2))) with Ok x => Some x | _ => None end
  = Some (inr 1, Some ([0;0;0;1; 0;0;0;0; 0;0;0;0;0;0;0;50; 0;0;0;0;0;0;0;1] ++ [2; 50]), inr 1, hdbg, Some (repeat 0 50)).
Proof.
  split; [apply hdbg_ok; auto|]. split; [right; exists 0; split; [lia|reflexivity]|]. split; [apply toy_safe|].
  split; [apply toy_lossless|]. vm_compute. reflexivity.
Qed.

(* The same for elf_compress_gnu ("ZLIB", size, data); the section header keeps
   its flags and alignment.  A forced compression must not grow the data by more
   than 11 bytes. *)
Theorem C40_gnu_roundtrip_partial :
  forall z f h hb pre i ops s0 s obs, file_ok f -> hdr_ok h -> compressible f h hb ->
    z_safe z -> z_lossless z -> 12 + zlen (z_defl z (section_bytes f h)) < two32 ->
    Forall (fun p => e_al (fst p) = true /\ off_ok (snd p)) ops ->
    open_sec f pre i h = Ok s0 -> rrun z f ops s0 = Ok (s, obs) ->
    forall aligned junk fl, fl = 0 \/ fl = 1 ->
    (fl = 1 -> zlen (z_defl z (section_bytes f h)) <= sh_size h + 11) ->
    (exists s1, elf_compress_gnu true aligned junk z f s 1 fl = Ok (s1, inr 0) /\ fl = 0 /\ s_hdr s1 = h) \/
    (exists s1, elf_compress_gnu true aligned junk z f s 1 fl = Ok (s1, inr 1) /\
      let out := [90; 76; 73; 66] ++ be_bytes 8 (sh_size h) ++ z_defl z (section_bytes f h) in
      s_hdr s1 = Shdr (sh_type h) (sh_flags h) (sh_offset h) (zlen out) (sh_addralign h) /\
      ed_buf (s_raw s1) = Some out /\ ed_size (s_raw s1) = zlen out /\
      (fl = 0 -> zlen out < sh_size h) /\
      forall aligned' junk' fl', fl' = 0 \/ fl' = 1 ->
      exists s2, elf_compress_gnu true aligned' junk' z f s1 0 fl' = Ok (s2, inr 1) /\
        s_hdr s2 = h /\
        ed_buf (s_raw s2) = Some (section_bytes f h) /\ ed_size (s_raw s2) = sh_size h /\
        ed_buf (s_first s2) = Some hb /\ ed_size (s_first s2) = sh_size h /\ s_rest s2 = []).
Proof.
  intros z f h hb pre i ops s0 s obs F H CP ZS ZL L A O R aligned junk fl FL BND.
  destruct (open_sec_inv true f pre i h F H) as (s' & E & I). rewrite E in O. injection O as <-.
  assert (CV : convertible f h) by (intros _ _; rewrite (cp_host _ _ _ CP); discriminate).
  destruct (rrun_inv true z f h F H CV ZS ops s') as (s1 & obs' & R' & I1 & _); [|exact I|].
  { eapply Forall_impl; [|exact A]. cbn beta. tauto. }
  rewrite R in R'. injection R' as <- <-.
  destruct (elf_compress_gnu_roundtrip z f h hb s F H CP ZL L I1 aligned junk fl FL BND) as [(s2 & X1 & X2 & X3)|(s2 & X)].
  - left. exists s2. split; [exact X1|]. split; [exact X2|exact (ri_hdr _ _ _ _ X3)].
  - right. exists s2. destruct X as (X1 & X2 & X3 & X4 & X5 & X6 & X7). split; [exact X1|].
    split; [exact X2|]. split; [exact X3|]. split; [exact X4|]. split; [exact X5|].
    intros aligned' junk' fl' FL'. destruct (X7 aligned' junk' fl' FL') as (s3 & Y1 & Y2 & Y3 & Y4 & Y5 & Y6 & _ & _ & Y7).
    exists s3. repeat (split; [assumption|]). assumption.
Qed.
Print Assumptions C40_gnu_roundtrip_partial.

Example C40_gnu_roundtrip_nonvacuous :
  compressible f1 hdbg (section_bytes f1 hdbg) /\
  match (s0 <- open_sec f1 true 1 hdbg ;; ' (s1, r) <- elf_compress_gnu true true j0 toy f1 s0 1 0 ;;
         ' (s2, r2) <- elf_compress_gnu true true j0 toy f1 s1 0 0 ;;
         Ok (r, ed_buf (s_raw s1), r2, s_hdr s2, ed_buf (s_first s2))) with Ok x => Some x | _ => None end
  = Some (inr 1, Some [90; 76; 73; 66; 0; 0; 0; 0; 0; 0; 0; 50; 2; 50], inr 1, hdbg, Some (repeat 0 50)).
Proof. split; [apply hdbg_ok; auto|]. vm_compute. reflexivity. Qed.

(* Decompressing whatever a compressed section contains, after any calls, also with
   failing allocations: an error leaving the header alone, or the header in the
   section said zlib and a power of two, and exactly as many bytes as it announced
   were produced, which is the new size of the section. *)
Theorem C40_corrupt_rejected :
  forall z f h pre i ops s0 s obs, file_ok f -> hdr_ok h -> z_safe z -> compressed h = true ->
    f_native f = true \/ sh_type h = 1 ->
    Forall (fun p => off_ok (snd p)) ops -> open_sec f pre i h = Ok s0 -> rrun z f ops s0 = Ok (s, obs) ->
    forall al aligned junk fl,
    exists s' r, elf_compress al aligned junk z f s 0 fl = Ok (s', r) /\
      ((exists e, r = inl e) /\ s_hdr s' = h \/
       r = inr 1 /\ exists b size align, chdr_of f h = (1, size, align) /\ pow2 align /\
         zlen b = size /\ ed_buf (s_raw s') = Some b /\ ed_size (s_raw s') = size /\
         s_hdr s' = Shdr (sh_type h) (Z.land (sh_flags h) (Z.lnot 2048)) (sh_offset h) size align).
Proof.
  intros z f h pre i ops s0 s obs F H ZS C N A O R al aligned junk fl.
  destruct (open_sec_inv false f pre i h F H) as (s' & E & I). rewrite E in O. injection O as <-.
  assert (CV : convertible f h).
  { intros _ _. unfold host_bytes. rewrite C. destruct (f_native f); discriminate. }
  destruct (rrun_inv false z f h F H CV ZS ops s') as (s1 & obs' & R' & I1 & _); [|exact I|].
  { eapply Forall_impl; [|exact A]. cbn beta. intros p X. split; [discriminate|exact X]. }
  rewrite R in R'. injection R' as <- <-. pose proof (ri_hdr _ _ _ _ I1) as SH.
  assert (ER : forall e, (exists s' r, Ok (s, @inl Z Z e) = Ok (s', r) /\
      ((exists e, r = inl e) /\ s_hdr s' = h \/
       r = inr 1 /\ exists b size align, chdr_of f h = (1, size, align) /\ pow2 align /\
         zlen b = size /\ ed_buf (s_raw s') = Some b /\ ed_size (s_raw s') = size /\
         s_hdr s' = Shdr (sh_type h) (Z.land (sh_flags h) (Z.lnot 2048)) (sh_offset h) size align))).
  { intros e. exists s, (inl e). split; [reflexivity|]. left. split; [eauto|exact SH]. }
  destruct (Z.land fl (-2) =? 0) eqn:FE.
  2:{ unfold elf_compress. rewrite FE. apply ER. }
  destruct (Z.testbit (sh_flags h) 1) eqn:AL.
  { unfold elf_compress. rewrite FE, SH, has_alloc, AL. apply ER. }
  destruct ((sh_type h =? 0) || (sh_type h =? 8)) eqn:T.
  { unfold elf_compress. rewrite FE, SH, has_alloc, AL. cbn [negb]. change SHT_NULL with 0. change SHT_NOBITS with 8. rewrite T. apply ER. }
  assert (FL : ok_flags fl).
  { assert (Z.land fl (-2) = 0) by lia. unfold ok_flags. clear - H0.
    assert (X : fl = Z.land fl 1).
    { apply Z.bits_inj'. intros n Hn. pose proof (f_equal (fun x => Z.testbit x n) H0) as B. cbn beta in B.
      rewrite Z.land_spec, Z.bits_0 in B. rewrite Z.land_spec. change (-2) with (Z.lnot 1) in B. rewrite Z.lnot_spec in B by lia.
      destruct (Z.testbit fl n), (Z.testbit 1 n); cbn in *; congruence. }
    change 1 with (Z.ones 1) in X. rewrite Z.land_ones in X by lia. change (2 ^ 1) with 2 in X.
    pose proof (Z.mod_pos_bound fl 2 ltac:(lia)). lia. }
  destruct (elf_decompress_validates al aligned junk z f h s fl F H ZS I1 FL AL ltac:(lia) ltac:(lia) C N)
    as [(s2 & e & X & Y)|(s2 & b & X & sz & a & Y1 & Y2 & Y3)].
  - exists s2, (inl e). split; [exact X|]. left. split; [eauto|exact Y].
  - exists s2, (inr 1). split; [exact X|]. right. split; [reflexivity|]. exists b, sz, a. split; [exact Y1|].
    split; [|exact Y3]. apply powerof2_pow2; [|exact Y2]. exact (chdr_align_u64 f h _ _ _ F Y1).
Qed.
Print Assumptions C40_corrupt_rejected.

(* A compressed section of 5 zeros, in a file of class 32. *)
Definition f2 (size : Z) := EFile true true ([127; 69; 76; 70; 1;0;0;0; size;0;0;0; 4;0;0;0; 2; 5]) 0 18 false true true 4 1.
Definition hz := Shdr 1 2048 4 14 1.
Definition undo (f : efile) (h : shdr) :=
  match (s0 <- open_sec f true 1 h ;; ' (s1, r) <- elf_compress true true j0 toy f s0 0 0 ;; Ok (r, s_hdr s1, ed_buf (s_first s1))) with
  | Ok x => Some x | _ => None end.
Example C40_corrupt_rejected_nonvacuous :
  file_ok (f2 5) /\ file_ok (f2 6) /\ hdr_ok hz /\ compressed hz = true /\
  undo (f2 5) hz = Some (inr 1, Shdr 1 0 4 5 4, Some [0; 0; 0; 0; 0]) /\
  match undo (f2 6) hz with Some (r, h, _) => Some (r, h) | None => None end = Some (inl ELF_E_DECOMPRESS_ERROR, hz).
Proof.
  assert (G : forall x, is_u8 x -> file_ok (f2 x)).
  { intros x X. unfold file_ok, f2. cbn [f_start f_max f_img f_map f_fd f_hashent].
    split; [lia|]. split; [lia|]. split; [vm_compute; discriminate|].
    split; [repeat (constructor; [first [exact X|unfold is_u8; lia]|]); constructor|]. split; auto. }
  split; [apply G; unfold is_u8; lia|]. split; [apply G; unfold is_u8; lia|].
  split; [vm_compute; repeat split; congruence|]. split; [reflexivity|]. split; vm_compute; reflexivity.
Qed.

(* A section that is already compressed is not refused: it is compressed again,
   and decompressing loses SHF_COMPRESSED. *)
Theorem C40_compressed_twice_refuted :
  exists f h s0 s1 s2, file_ok f /\ hdr_ok h /\ deliverable f h /\ compressed h = true /\ open_sec f true 1 h = Ok s0 /\
    elf_compress true true j0 toy f s0 1 1 = Ok (s1, inr 1) /\
    elf_compress true true j0 toy f s1 0 0 = Ok (s2, inr 1) /\
    ed_buf (s_raw s2) = Some (section_bytes f h) /\ compressed (s_hdr s2) = false.
Proof.
  exists (f2 5), hz. do 3 eexists. split; [apply C40_corrupt_rejected_nonvacuous|].
  split; [vm_compute; repeat split; congruence|]. split; [intros _; split; [reflexivity|vm_compute; discriminate]|].
  split; [reflexivity|]. split; [vm_compute; reflexivity|]. split; [vm_compute; reflexivity|].
  split; [vm_compute; reflexivity|]. split; [vm_compute; reflexivity|]. vm_compute; reflexivity.
Qed.
Print Assumptions C40_compressed_twice_refuted.

(* In class 32 the alignment is not restored when it was 0 (or larger than the
   offset of the section). *)
Theorem C40_alignment_refuted :
  exists f h s0 s1 s2, file_ok f /\ hdr_ok h /\ compressible f h (section_bytes f h) /\ open_sec f true 1 h = Ok s0 /\
    elf_compress true true j0 toy f s0 1 1 = Ok (s1, inr 1) /\
    elf_compress true true j0 toy f s1 0 0 = Ok (s2, inr 1) /\
    sh_addralign h = 8 /\ sh_addralign (s_hdr s2) = 4.
Proof.
  exists (f2 5), (Shdr 1 0 4 14 8). do 3 eexists. split; [apply C40_corrupt_rejected_nonvacuous|].
  split; [vm_compute; repeat split; congruence|].
  split. { constructor; try (vm_compute; reflexivity); try (vm_compute; split; congruence). }
  split; [vm_compute; reflexivity|]. split; [vm_compute; reflexivity|].
  split; [vm_compute; reflexivity|]. split; [vm_compute; reflexivity|]. vm_compute; reflexivity.
Qed.
Print Assumptions C40_alignment_refuted.

(* A section whose alignment is no power of two is compressed, but the result can
   not be decompressed. *)
Theorem C40_odd_alignment_refuted :
  exists f h s0 s1 s2, file_ok f /\ hdr_ok h /\ compressible f h (section_bytes f h) /\ open_sec f true 1 h = Ok s0 /\
    elf_compress true true j0 toy f s0 1 0 = Ok (s1, inr 1) /\
    elf_compress true true j0 toy f s1 0 0 = Ok (s2, inl ELF_E_INVALID_ALIGN).
Proof.
  exists f1n, (Shdr 1 0 9 50 3). do 3 eexists. split; [apply f1_ok|].
  split; [vm_compute; repeat split; congruence|].
  split. { constructor; try (vm_compute; reflexivity); try (vm_compute; split; congruence). }
  split; [vm_compute; reflexivity|]. split; [vm_compute; reflexivity|]. vm_compute; reflexivity.
Qed.
Print Assumptions C40_odd_alignment_refuted.

(* A section with two data records: after compression the second record is still
   in the list, behind the compressed data of both. *)
Theorem C40_records_refuted :
  exists s0 s1 s2, Forall block_ok (blocks s0) /\ length (blocks s0) = 2%nat /\
    elf_compress true true j0 toy f1n s0 1 1 = Ok (s1, inr 1) /\
    elf_compress true true j0 toy f1n s1 0 0 = Ok (s2, inr 1) /\
    ed_buf (s_first s2) = Some ([0; 97; 0] ++ [98; 0]) /\
    nth_error (blocks s1) 1 = nth_error (blocks s0) 1 /\ nth_error (blocks s2) 1 = nth_error (blocks s0) 1.
Proof.
  exists sblk. do 2 eexists. split; [apply C16_strptr_blocks_nonvacuous|]. split; [reflexivity|].
  split; [vm_compute; reflexivity|]. split; [vm_compute; reflexivity|].
  split; [vm_compute; reflexivity|]. split; [vm_compute; reflexivity|]. vm_compute; reflexivity.
Qed.
Print Assumptions C40_records_refuted.

(* The GNU format, forced on data that grows: it is stored, but refused when read
   back. *)
Theorem C40_gnu_forced_refuted :
  exists z f h s0 s1 s2, z_safe z /\ z_lossless z /\ file_ok f /\ hdr_ok h /\ compressible f h (section_bytes f h) /\ open_sec f true 1 h = Ok s0 /\
    elf_compress_gnu true true j0 z f s0 1 1 = Ok (s1, inr 1) /\
    elf_compress_gnu true true j0 z f s1 0 0 = Ok (s2, inl ELF_E_NOT_COMPRESSED).
Proof.
  exists toy, f1n, (Shdr 1 0 4 20 1). do 3 eexists. split; [apply toy_safe|]. split; [apply toy_lossless|]. split; [apply f1_ok|].
  split; [vm_compute; repeat split; congruence|].
  split. { constructor; try (vm_compute; reflexivity); try (vm_compute; split; congruence). }
  split; [vm_compute; reflexivity|]. split; [vm_compute; reflexivity|]. vm_compute; reflexivity.
Qed.
Print Assumptions C40_gnu_forced_refuted.
