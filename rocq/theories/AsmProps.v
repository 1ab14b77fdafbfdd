(* C04, C05, C44, C45: section content built with libasm.
   [content s] is the byte string of the section so far: the bytes of its
   blocks in order of creation; a byte that was never written is None. *)
From Verif Require Import Base LebModel LebSpec LebProof AsmModel AsmSpec AsmProof.

(* A reachable section: the invariant [awf] holds initially (new_awf) and is
   kept by every operation (second conjunct of each theorem). *)

(* ---------------------------------------------------------------- C04 *)
Theorem C04_uleb128_appends_encoding :
  forall s n, awf s -> as_nobits s = false -> 0 <= n < 2 ^ 32 -> as_offset s < 2 ^ 62 ->
    exists s' bs, asm_adduleb128 (fun _ => true) s n = Ok s' /\ awf s' /\
      content s' = content s ++ map Some bs /\ as_offset s' = as_offset s + zlen bs /\
      leb_complete bs /\ uleb_value bs = n /\ bs = uleb_encode 5 n.
Proof.
  intros s n W Hnb Hn Ho.
  destruct (adduleb_ok s n W Hnb Hn Ho) as (s' & E & W' & C & O & _).
  exists s', (uleb_encode 5 n). do 4 (split; [assumption|]).
  assert (Hr : 0 <= n < 128 ^ Z.of_nat 5) by (change (128 ^ Z.of_nat 5) with 34359738368; lia).
  destruct (uleb_encode_spec 5 n Hr ltac:(lia)) as (Hc & Hv & _). auto.
Qed.
Print Assumptions C04_uleb128_appends_encoding.

(* ... so the DWARF reader gets the number back *)
Theorem C04_uleb128_reads_back :
  forall (n : Z) (pre rest : bytes) (end_ : Z), 0 <= n < 2 ^ 32 ->
    zlen pre + zlen (uleb_encode 5 n) <= end_ ->
    get_uleb128 (pre ++ uleb_encode 5 n ++ rest) (zlen pre) end_
    = Ok (n, zlen pre + zlen (uleb_encode 5 n)).
Proof.
  intros n pre rest end_ Hn He.
  assert (Hr : 0 <= n < 128 ^ Z.of_nat 5) by (change (128 ^ Z.of_nat 5) with 34359738368; lia).
  destruct (uleb_encode_spec 5 n Hr ltac:(lia)) as (Hc & Hv & Hl).
  rewrite get_uleb128_correct by (auto; lia).
  rewrite Hv, Z.mod_small by lia. reflexivity.
Qed.
Print Assumptions C04_uleb128_reads_back.

Example C04_uleb128_nonvacuous :
  awf (new_scn false) /\
  (s <- asm_adduleb128 (fun _ => true) (new_scn false) 624485 ;; Ok (content s))
  = Ok [Some 229; Some 142; Some 38].
Proof. split; [apply new_awf|reflexivity]. Qed.

(* asm_addsleb128 appends a complete LEB128 number of k bytes, k least with
   -128^k <= n < 128^k; it decodes to n exactly if n fits k signed groups.
   _partial: the other half of the numbers is encoded wrongly. *)
Theorem C04_sleb128_partial :
  forall s n, awf s -> as_nobits s = false -> - 2 ^ 31 <= n < 2 ^ 31 -> as_offset s < 2 ^ 62 ->
    exists s' bs k, asm_addsleb128 (fun _ => true) s n = Ok s' /\ awf s' /\
      content s' = content s ++ map Some bs /\ as_offset s' = as_offset s + zlen bs /\
      leb_complete bs /\ zlen bs = k /\ 1 <= k <= 5 /\
      - 128 ^ k <= n < 128 ^ k /\
      (k = 1 \/ ~ (- 128 ^ (k - 1) <= n < 128 ^ (k - 1))) /\
      (sleb_value bs = n <-> - (64 * 128 ^ (k - 1)) <= n < 64 * 128 ^ (k - 1)).
Proof.
  intros s n W Hnb Hn Ho.
  destruct (addsleb_ok s n W Hnb Hn Ho)
    as (s' & bs & k & E & W' & C & O & _ & _ & _ & Hc & Hl & Hk & Hr & Hm & Hv & _).
  exists s', bs, (Z.of_nat k). do 6 (split; [assumption|]). split; [lia|]. split; [assumption|].
  split; [|exact Hv]. destruct Hm as [->|Hm]; [now left|now right].
Qed.
Print Assumptions C04_sleb128_partial.

Example C04_sleb128_nonvacuous :
  (s <- asm_addsleb128 (fun _ => true) (new_scn false) (-123456) ;; Ok (content s))
  = Ok [Some 192; Some 187; Some 120] /\ sleb_value [192; 187; 120] = -123456.
Proof. split; reflexivity. Qed.

(* 64 is emitted as 0x40, which every reader decodes as -64. *)
Theorem C04_sleb128_refuted :
  exists n s', - 2 ^ 31 <= n < 2 ^ 31 /\
    asm_addsleb128 (fun _ => true) (new_scn false) n = Ok s' /\
    content s' = [Some 64] /\ n = 64 /\ sleb_value [64] = -64 /\
    get_sleb128 [64] 0 1 = Ok (-64, 1).
Proof.
  exists 64. eexists. split; [lia|]. split; [reflexivity|]. repeat split.
Qed.
Print Assumptions C04_sleb128_refuted.

(* ---------------------------------------------------------------- C05 *)
(* What is true of asm_addint*: room for the integer is appended, earlier
   content is unchanged, the offset advances.  _partial: the bytes appended to
   a section with content are not the integer (next theorem). *)
Theorem C05_addint_partial :
  forall host out n s num, awf s -> as_nobits s = false ->
    (n = 1 \/ n = 2 \/ n = 4 \/ n = 8)%nat -> as_offset s < 2 ^ 62 ->
    exists s' d, asm_addint host out (fun _ => true) n s num = Ok s' /\ awf s' /\
      content s' = content s ++ d /\ zlen d = Z.of_nat n /\
      as_offset s' = as_offset s + Z.of_nat n.
Proof.
  intros host out n s num W Hnb Hn Ho.
  destruct (addint_progbits host out n s num W Hnb ltac:(lia) Ho) as (s' & E & W' & C & O & _).
  exists s', (repeat None n). split; [exact E|]. split; [exact W'|]. split; [exact C|].
  split; [apply zlen_repeat|exact O].
Qed.
Print Assumptions C05_addint_partial.

Theorem C05_addint_nobits :
  forall host out n s num, awf s -> as_nobits s = true ->
    (n = 1 \/ n = 2 \/ n = 4 \/ n = 8)%nat -> as_offset s < 2 ^ 62 ->
    (num <> 0 -> asm_addint host out (fun _ => true) n s num = Err ASM_E_TYPE) /\
    (num = 0 -> exists s', asm_addint host out (fun _ => true) n s num = Ok s' /\
       content s' = content s ++ map Some (repeat 0 n) /\
       as_offset s' = as_offset s + Z.of_nat n).
Proof.
  intros host out n s num W Hnb Hn Ho.
  destruct (addint_nobits host out n s num W Hnb ltac:(lia) Ho) as [H1 H2].
  split; [exact H1|]. intros Hz. destruct (H2 Hz) as (s' & E & _ & C & O). eauto.
Qed.
Print Assumptions C05_addint_nobits.

Example C05_addint_nonvacuous :
  (s <- asm_addstrz (fun _ => true) (new_scn false) [65; 66] 2 ;;
   s <- asm_addint LE BE (fun _ => true) 4 s 7 ;; Ok (zlen (content s), firstn 2 (content s)))
  = Ok (6, [Some 65; Some 66]).
Proof. reflexivity. Qed.

(* In every section that has content the integer is never stored: the
   appended bytes are whatever malloc returned. *)
Theorem C05_addint_not_stored_refuted :
  forall host out n s num, awf s -> as_nobits s = false ->
    (n = 1 \/ n = 2 \/ n = 4 \/ n = 8)%nat -> as_offset s < 2 ^ 62 ->
    exists s', asm_addint host out (fun _ => true) n s num = Ok s' /\
      content s' = content s ++ repeat None n.
Proof.
  intros host out n s num W Hnb Hn Ho.
  destruct (addint_progbits host out n s num W Hnb ltac:(lia) Ho) as (s' & E & W' & C & O & _).
  eauto.
Qed.
Print Assumptions C05_addint_not_stored_refuted.

(* ---------------------------------------------------------------- C44 *)
(* Any history of string, ULEB128, SLEB128, alignment and fill-pattern
   operations builds exactly the concatenation of the pieces, padding included,
   however the content is split into blocks.  _partial: asm_addint* excluded
   (C05), asm_addsleb128 only with numbers that fit (C04). *)
Theorem C44_section_content_partial :
  forall ops, Forall aop_good ops -> total_max ops < 2 ^ 62 ->
    exists s', arun (new_scn false) ops = Ok s' /\
      content s' = map Some (section_content true [0] [] ops) /\
      as_offset s' = zlen (section_content true [0] [] ops).
Proof.
  intros ops Hg Hm. destruct (new_awf false) as [W C].
  destruct (arun_ok ops (new_scn false) [] W eq_refl C ltac:(cbn; lia) Hg) as (s' & E & W' & C').
  { rewrite zlen_nil. lia. }
  exists s'. split; [exact E|]. split; [exact C'|].
  rewrite (awf_off _ W'), C'. unfold zlen. now rewrite map_length.
Qed.
Print Assumptions C44_section_content_partial.

Definition demo_aops : list aop :=
  [AStr [104; 105; 0]; AFill [1; 2; 3]; AAlign 8; AUleb 300; ASleb (-5); AAlign 4].

Example C44_nonvacuous :
  Forall aop_good demo_aops /\ total_max demo_aops < 2 ^ 62 /\
  section_content true [0] [] demo_aops
  = [104; 105; 0; 1; 2; 3; 1; 2; 172; 2; 123; 3].
Proof.
  split; [|split; reflexivity].
  unfold demo_aops.
  repeat (apply Forall_cons || apply Forall_nil); (split; [|try exact I]); cbn [aop_ok];
    unfold is_u32, bytes_ok; rewrite ?zlen_cons, ?zlen_nil; repeat split; try lia;
    repeat (apply Forall_cons || apply Forall_nil); unfold is_u8; try lia.
  - exists 3; lia.
  - exists 1; change (128 ^ (1 - 1)) with 1; lia.
  - exists 2; lia.
Qed.

(* asm_align leaves the offset at the next multiple and only ever raises the
   recorded alignment. *)
Theorem C44_align :
  forall s v, awf s -> 0 < zlen (as_pattern s) -> is_power2 v -> v < 2 ^ 32 ->
    as_offset s < 2 ^ 62 ->
    exists s' d, asm_align (fun _ => true) s v = Ok s' /\ awf s' /\
      content s' = content s ++ map Some d /\ zlen d < v /\
      as_offset s' mod v = 0 /\ as_offset s' = as_offset s + zlen d /\
      (forall i, 0 <= i < zlen d ->
         znth d i = znth (as_pattern s) ((as_offset s + i) mod zlen (as_pattern s))) /\
      as_align s' = Z.max (as_align s) v.
Proof.
  intros s v W Hp Hp2 Hv Ho.
  destruct (align_ok s v W Hp Hp2 Hv Ho) as (s' & E & W' & C & O & _ & _ & A).
  assert (Hv0 : 0 < v) by (destruct Hp2 as (k & Hk & ->); apply Z.pow_pos_nonneg; lia).
  assert (Hoff : 0 <= as_offset s) by (rewrite (awf_off _ W); apply zlen_nonneg).
  pose proof (Z.mod_pos_bound (- as_offset s) v Hv0).
  exists s', (padding (as_pattern s) (as_offset s) v).
  do 3 (split; [assumption|]). rewrite padding_len by lia. split; [lia|]. split.
  - rewrite O. rewrite Z.add_mod_idemp_r by lia. rewrite Z.add_opp_diag_r. apply Z.mod_0_l; lia.
  - split; [exact O|]. split; [|exact A].
    intros i Hi. unfold padding. rewrite znth_map.
    assert (Es : znth (seq 0 (Z.to_nat (- as_offset s mod v))) i = Some (Z.to_nat i)).
    { unfold znth, zlen. rewrite seq_length.
      replace ((0 <=? i) && (i <? Z.of_nat (Z.to_nat (- as_offset s mod v)))) with true by lia.
      rewrite (nth_error_nth' _ 0%nat) by (rewrite seq_length; lia).
      rewrite seq_nth by lia. reflexivity. }
    rewrite Es. cbn [option_map]. rewrite Z2Nat.id by lia.
    pose proof (Z.mod_pos_bound (as_offset s + i) (zlen (as_pattern s)) Hp) as Hb.
    destruct (znth_in _ _ _ Hb) as [x Ex]. rewrite Ex. f_equal.
    apply znth_Some in Ex. destruct Ex as [_ Ex]. now apply nth_error_nth.
Qed.
Print Assumptions C44_align.

Example C44_align_nonvacuous : is_power2 8 /\ awf (new_scn false).
Proof. split; [exists 3; lia|apply new_awf]. Qed.

(* ---------------------------------------------------------------- C45 *)
(* Writing the object file: with a single block the data of the section is its
   content.  _partial: with several blocks the order is wrong. *)
Theorem C45_asm_end_content_partial :
  forall s, (length (as_blocks s) <= 1)%nat ->
    concat (map snd (asm_end_section s)) = content s.
Proof.
  intros s H. unfold asm_end_section. rewrite end_datas_bytes. unfold content.
  destruct (as_blocks s) as [|b [|b' l]]; [reflexivity|reflexivity|simpl in H; lia].
Qed.
Print Assumptions C45_asm_end_content_partial.

Example C45_nonvacuous :
  (s <- asm_addstrz (fun _ => true) (new_scn false) [65; 66] 2 ;;
   Ok (length (as_blocks s), concat (map snd (asm_end_section s))))
  = Ok (1%nat, [Some 65; Some 66]).
Proof. reflexivity. Qed.

(* A section of more than 960 bytes: the block added last is written first. *)
Theorem C45_asm_end_order_refuted :
  exists s1 s2, asm_addstrz (fun _ => true) (new_scn false) (repeat 65 480) 480 = Ok s1 /\
    arun s1 [AStr (repeat 66 480); AStr [67; 68]] = Ok s2 /\
    content s2 = map Some (repeat 65 480 ++ repeat 66 480 ++ [67; 68]) /\
    concat (map snd (asm_end_section s2)) = map Some ([67; 68] ++ repeat 65 480 ++ repeat 66 480).
Proof.
  set (s0 := {| as_nobits := false; as_offset := 480; as_align := 1; as_pattern := [0];
            as_blocks := [{| ab_max := 960; ab_data := map Some (repeat 65 480) |}] |}).
  exists s0.
  exists {| as_nobits := false; as_offset := 962; as_align := 1; as_pattern := [0];
            as_blocks := [{| ab_max := 960; ab_data := map Some (repeat 65 480 ++ repeat 66 480) |};
                          {| ab_max := 1920; ab_data := [Some 67; Some 68] |}] |}.
  split; [vm_compute; reflexivity|]. split; [vm_compute; reflexivity|].
  split; vm_compute; reflexivity.
Qed.
Print Assumptions C45_asm_end_order_refuted.
