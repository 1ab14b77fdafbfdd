(* C01, C02, C03: decoding of LEB128 numbers and of fixed-width integers.
   Statements only; the proofs are in LebProof.v. *)
From Verif Require Import Base LebModel LebSpec LebProof.

(* ---------------------------------------------------------------- C01 *)
(* A complete ULEB128 number of at most ten bytes that ends at or before the
   end pointer decodes to its mathematical value modulo 2^64, and the cursor
   ends one past its last byte, whatever surrounds it. *)
Theorem C01_uleb128_value :
  forall (pre bs rest : bytes) (end_ : Z),
    leb_complete bs -> zlen bs <= 10 -> zlen pre + zlen bs <= end_ ->
    get_uleb128 (pre ++ bs ++ rest) (zlen pre) end_
    = Ok (uleb_value bs mod two64, zlen pre + zlen bs).
Proof. exact get_uleb128_correct. Qed.
Print Assumptions C01_uleb128_value.
Example C01_uleb128_value_nonvacuous :
  leb_complete [229; 142; 38] /\ uleb_value [229; 142; 38] = 624485
  /\ get_uleb128 [7; 229; 142; 38; 9] 1 5 = Ok (624485, 4).
Proof. vm_compute; intuition congruence. Qed.

(* Every value below 2^64 round trips through its shortest encoding. *)
Theorem C01_uleb128_roundtrip :
  forall (v : Z) (pre rest : bytes) (end_ : Z),
    0 <= v < two64 ->
    let bs := uleb_encode 10 v in
    zlen pre + zlen bs <= end_ ->
    get_uleb128 (pre ++ bs ++ rest) (zlen pre) end_ = Ok (v, zlen pre + zlen bs).
Proof.
  intros v pre rest end_ Hv bs He.
  assert (H128 : 0 <= v < 128 ^ Z.of_nat 10).
  { change (128 ^ Z.of_nat 10) with 1180591620717411303424. lia. }
  destruct (uleb_encode_spec 10 v H128 ltac:(lia)) as (Hc & Hval & Hl).
  fold bs in Hc, Hval, Hl. rewrite get_uleb128_correct by (auto; lia).
  now rewrite Hval, Z.mod_small by lia.
Qed.
Print Assumptions C01_uleb128_roundtrip.
Example C01_uleb128_roundtrip_nonvacuous :
  get_uleb128 (uleb_encode 10 18446744073709551615) 0 10 = Ok (18446744073709551615, 10).
Proof. vm_compute; reflexivity. Qed.

(* Any bytes at all: the decoder returns, stays below the end pointer, moves
   the cursor forward by one to ten bytes. *)
Theorem C01_uleb128_total :
  forall (mem : bytes) (pos end_ : Z),
    bytes_ok mem -> 0 <= pos < end_ -> end_ <= zlen mem ->
    exists v p, get_uleb128 mem pos end_ = Ok (v, p) /\ is_u64 v
                /\ pos < p <= end_ /\ p <= pos + 10.
Proof. exact get_uleb128_total. Qed.
Print Assumptions C01_uleb128_total.
Example C01_uleb128_total_nonvacuous :
  bytes_ok [255; 255; 255] /\ get_uleb128 [255; 255; 255] 0 3 = Ok (18446744073709551615, 3).
Proof. split; [repeat constructor; unfold is_u8; lia|vm_compute; reflexivity]. Qed.

(* Bytes outside [pos, end) never matter. *)
Theorem C01_uleb128_reads_only_below_end :
  forall (mem mem' : bytes) (pos end_ : Z),
    pos < end_ ->
    (forall k, pos <= k < end_ -> znth mem k = znth mem' k) ->
    get_uleb128 mem pos end_ = get_uleb128 mem' pos end_.
Proof. exact get_uleb128_local. Qed.
Print Assumptions C01_uleb128_reads_only_below_end.
Example C01_uleb128_reads_only_below_end_nonvacuous :
  get_uleb128 [128; 129; 5] 0 2 = get_uleb128 [128; 129; 77] 0 2.
Proof. vm_compute; reflexivity. Qed.

(* A number cut by the end pointer, or longer than ten bytes, gives the
   largest value, with the cursor past the bytes that were looked at. *)
Theorem C01_uleb128_unterminated :
  forall (pre bs rest : bytes) (end_ : Z),
    no_terminator bs -> 0 < zlen bs ->
    (zlen bs = 10 /\ zlen pre + 10 <= end_ \/ zlen bs <= 10 /\ end_ = zlen pre + zlen bs) ->
    get_uleb128 (pre ++ bs ++ rest) (zlen pre) end_
    = Ok (18446744073709551615, zlen pre + zlen bs).
Proof. exact get_uleb128_unterminated. Qed.
Print Assumptions C01_uleb128_unterminated.
Example C01_uleb128_unterminated_nonvacuous :
  no_terminator [200; 201] /\ get_uleb128 [1; 200; 201; 3] 1 3 = Ok (18446744073709551615, 3).
Proof. split; [repeat constructor; lia|vm_compute; reflexivity]. Qed.

(* The unchecked variant gives the same answer as the checked one whenever
   the checked one found the end of the number before the end pointer. *)
Theorem C01_uleb128_unchecked_agrees :
  forall (mem : bytes) (pos end_ v p : Z),
    pos < end_ -> get_uleb128 mem pos end_ = Ok (v, p) -> p < end_ -> p < pos + 10 ->
    get_uleb128_unchecked mem pos = Ok (v, p).
Proof.
  intros mem pos end_ v p He H Hp Hp10.
  rewrite get_uleb_as_loop in H by lia. rewrite get_uleb_unchecked_as_loop.
  apply (uleb_loop_more _ 10 _ _ _ _ _ _ H); lia.
Qed.
Print Assumptions C01_uleb128_unchecked_agrees.
Example C01_uleb128_unchecked_agrees_nonvacuous :
  get_uleb128 [128; 1; 0] 0 3 = Ok (128, 2) /\ get_uleb128_unchecked [128; 1; 0] 0 = Ok (128, 2).
Proof. vm_compute; split; reflexivity. Qed.

(* The cursor being at the end pointer is not caught: the first byte is read
   before any comparison with the end (finding F01). *)
Theorem C01_uleb128_first_byte_refuted :
  exists mem pos end_, bytes_ok mem /\ 0 <= pos <= end_ /\ end_ <= zlen mem
                       /\ get_uleb128 mem pos end_ = UB.
Proof.
  exists [1], 1, 1. split; [repeat constructor; unfold is_u8; lia|].
  vm_compute; intuition congruence.
Qed.
Print Assumptions C01_uleb128_first_byte_refuted.

(* ---------------------------------------------------------------- C02 *)
(* Signed: every complete number of at most nine bytes has its exact value. *)
Theorem C02_sleb128_value_partial :
  forall (pre bs rest : bytes) (end_ : Z),
    leb_complete bs -> zlen bs <= 9 -> zlen pre + zlen bs <= end_ ->
    get_sleb128 (pre ++ bs ++ rest) (zlen pre) end_ = Ok (sleb_value bs, zlen pre + zlen bs).
Proof. exact get_sleb128_correct. Qed.
Print Assumptions C02_sleb128_value_partial.
Example C02_sleb128_value_nonvacuous :
  leb_complete [192; 187; 120] /\ sleb_value [192; 187; 120] = -123456
  /\ get_sleb128 [192; 187; 120] 0 3 = Ok (-123456, 3).
Proof. vm_compute; intuition congruence. Qed.

(* Hence every value of 63 bits round trips.  Missing for the full C02: the
   values outside [-2^62, 2^62), whose shortest encoding has ten bytes. *)
Theorem C02_sleb128_roundtrip_partial :
  forall (v : Z) (pre rest : bytes) (end_ : Z),
    - 2 ^ 62 <= v < 2 ^ 62 ->
    let bs := sleb_encode 9 v in
    zlen pre + zlen bs <= end_ ->
    get_sleb128 (pre ++ bs ++ rest) (zlen pre) end_ = Ok (v, zlen pre + zlen bs).
Proof.
  intros v pre rest end_ Hv bs He.
  assert (H128 : - (64 * 128 ^ Z.of_nat 8) <= v < 64 * 128 ^ Z.of_nat 8).
  { change (64 * 128 ^ Z.of_nat 8) with (2 ^ 62). lia. }
  destruct (sleb_encode_spec 8 v H128) as (Hc & Hval & Hl).
  fold bs in Hc, Hval, Hl. rewrite get_sleb128_correct by (auto; lia).
  now rewrite Hval.
Qed.
Print Assumptions C02_sleb128_roundtrip_partial.
Example C02_sleb128_roundtrip_nonvacuous :
  get_sleb128 (sleb_encode 9 (-4611686018427387904)) 0 9 = Ok (-4611686018427387904, 9).
Proof. vm_compute; reflexivity. Qed.

Theorem C02_sleb128_total :
  forall (mem : bytes) (pos end_ : Z),
    bytes_ok mem -> 0 <= pos < end_ -> end_ <= zlen mem ->
    exists v p, get_sleb128 mem pos end_ = Ok (v, p) /\ pos < p <= end_ /\ p <= pos + 9.
Proof. exact get_sleb128_total. Qed.
Print Assumptions C02_sleb128_total.
Example C02_sleb128_total_nonvacuous :
  get_sleb128 [255; 255] 0 2 = Ok (9223372036854775807, 2).
Proof. vm_compute; reflexivity. Qed.

Theorem C02_sleb128_reads_only_below_end :
  forall (mem mem' : bytes) (pos end_ : Z),
    pos < end_ ->
    (forall k, pos <= k < end_ -> znth mem k = znth mem' k) ->
    get_sleb128 mem pos end_ = get_sleb128 mem' pos end_.
Proof. exact get_sleb128_local. Qed.
Print Assumptions C02_sleb128_reads_only_below_end.
Example C02_sleb128_reads_only_below_end_nonvacuous :
  get_sleb128 [128; 129; 5] 0 2 = get_sleb128 [128; 129; 77] 0 2.
Proof. vm_compute; reflexivity. Qed.

(* The full statement is false: the decoder looks at nine bytes only, so a
   signed 64-bit number with a ten byte encoding is misread (finding F02). *)
Theorem C02_sleb128_every_int64_refuted :
  exists v, - two63 <= v < two63
            /\ leb_complete (sleb_encode 10 v) /\ sleb_value (sleb_encode 10 v) = v
            /\ get_sleb128 (sleb_encode 10 v) 0 (zlen (sleb_encode 10 v)) <> Ok (v, 10)
            /\ get_sleb128 (sleb_encode 10 v) 0 (zlen (sleb_encode 10 v)) = Ok (two63 - 1, 9).
Proof. exists (- two63). vm_compute; intuition congruence. Qed.
Print Assumptions C02_sleb128_every_int64_refuted.

(* ---------------------------------------------------------------- C03 *)
(* The byte order of the file, given the host's and the "other order" flag. *)
Definition file_order (host : endian) (other : bool) : byte_order :=
  match host, other with
  | LE, false | BE, true => little
  | LE, true | BE, false => big
  end.

Lemma file_order_eq : forall host other,
  order_of (file_byte_order host other) = file_order host other.
Proof. intros [] []; reflexivity. Qed.

(* On a host of either byte order, an unaligned 2, 4 or 8 byte read gives the
   integer those bytes denote in the byte order of the file. *)
Theorem C03_unaligned_read :
  forall (host : endian) (other : bool) (pre b rest : bytes),
    bytes_ok b ->
    (zlen b = 2 -> read_2ubyte_unaligned host other (pre ++ b ++ rest) (zlen pre)
                   = Ok (int_value (file_order host other) b))
    /\ (zlen b = 4 -> read_4ubyte_unaligned host other (pre ++ b ++ rest) (zlen pre)
                   = Ok (int_value (file_order host other) b))
    /\ (zlen b = 8 -> read_8ubyte_unaligned host other (pre ++ b ++ rest) (zlen pre)
                   = Ok (int_value (file_order host other) b))
    /\ (zlen b = 3 -> read_3ubyte_unaligned host other (pre ++ b ++ rest) (zlen pre)
                   = Ok (int_value (file_order host other) b)).
Proof.
  intros host other pre b rest Hb. rewrite <- file_order_eq.
  unfold read_2ubyte_unaligned, read_4ubyte_unaligned, read_8ubyte_unaligned, zlen.
  repeat split; intros Hl.
  1-3: apply read_ubyte_correct; [assumption|lia].
  apply read_3ubyte_correct; [assumption|lia].
Qed.
Print Assumptions C03_unaligned_read.
Example C03_unaligned_read_nonvacuous :
  read_4ubyte_unaligned LE true [9; 18; 52; 86; 120] 1 = Ok 305419896
  /\ read_3ubyte_unaligned BE true [9; 18; 52; 86; 120] 1 = Ok 5649426.
Proof. vm_compute; split; reflexivity. Qed.

(* Signed reads: the two's complement reading of the same integer. *)
Definition twos_complement (bits v : Z) : Z :=
  if v <? 2 ^ (bits - 1) then v else v - 2 ^ bits.

Lemma int_value_bound : forall o b, bytes_ok b -> 0 <= int_value o b < 256 ^ zlen b.
Proof.
  intros [] b H; unfold int_value; [now apply le_value_bound|].
  unfold be_value. rewrite <- (zlen_rev _ b). apply le_value_bound. now apply Forall_rev.
Qed.

Theorem C03_unaligned_signed_read :
  forall (host : endian) (other : bool) (pre b rest : bytes),
    bytes_ok b ->
    (zlen b = 2 -> read_2sbyte_unaligned host other (pre ++ b ++ rest) (zlen pre)
                   = Ok (twos_complement 16 (int_value (file_order host other) b)))
    /\ (zlen b = 4 -> read_4sbyte_unaligned host other (pre ++ b ++ rest) (zlen pre)
                   = Ok (twos_complement 32 (int_value (file_order host other) b)))
    /\ (zlen b = 8 -> read_8sbyte_unaligned host other (pre ++ b ++ rest) (zlen pre)
                   = Ok (twos_complement 64 (int_value (file_order host other) b))).
Proof.
  intros host other pre b rest Hb.
  destruct (C03_unaligned_read host other pre b rest Hb) as (H2 & H4 & H8 & _).
  pose proof (int_value_bound (file_order host other) b Hb) as Hv.
  unfold read_2sbyte_unaligned, read_4sbyte_unaligned, read_8sbyte_unaligned.
  unfold twos_complement, s16, s32, s64.
  repeat split; intros Hl; rewrite Hl in Hv.
  - rewrite H2 by assumption. cbn [obind]. f_equal.
    change (2 ^ (16 - 1)) with 32768. change (2 ^ 16) with 65536.
    change (256 ^ 2) with 65536 in Hv.
    destruct (_ <? 32768) eqn:E; Z.div_mod_to_equations; lia.
  - rewrite H4 by assumption. cbn [obind]. f_equal.
    change (2 ^ (32 - 1)) with 2147483648. change (2 ^ 32) with 4294967296.
    change (256 ^ 4) with 4294967296 in Hv.
    destruct (_ <? 2147483648) eqn:E; Z.div_mod_to_equations; lia.
  - rewrite H8 by assumption. cbn [obind]. f_equal.
    change (2 ^ (64 - 1)) with two63. change (2 ^ 64) with two64.
    change (256 ^ 8) with two64 in Hv.
    destruct (_ <? two63) eqn:E; Z.div_mod_to_equations; lia.
Qed.
Print Assumptions C03_unaligned_signed_read.
Example C03_unaligned_signed_read_nonvacuous :
  read_2sbyte_unaligned LE false [254; 255] 0 = Ok (-2).
Proof. vm_compute; reflexivity. Qed.

(* The reads that advance a cursor deliver the same value and move the cursor
   by exactly the width, except for the three byte one. *)
Theorem C03_unaligned_read_inc_partial :
  forall (host : endian) (other : bool) (pre b rest : bytes),
    bytes_ok b ->
    let mem := pre ++ b ++ rest in
    let v := int_value (file_order host other) b in
    (zlen b = 2 -> read_2ubyte_unaligned_inc host other mem (zlen pre) = Ok (v, zlen pre + 2))
    /\ (zlen b = 4 -> read_4ubyte_unaligned_inc host other mem (zlen pre) = Ok (v, zlen pre + 4))
    /\ (zlen b = 8 -> read_8ubyte_unaligned_inc host other mem (zlen pre) = Ok (v, zlen pre + 8))
    /\ (zlen b = 4 \/ zlen b = 8 ->
        read_addr_unaligned_inc (zlen b) host other mem (zlen pre)
        = Ok (v, zlen pre + zlen b)).
Proof.
  intros host other pre b rest Hb mem v.
  destruct (C03_unaligned_read host other pre b rest Hb) as (H2 & H4 & H8 & _).
  unfold read_addr_unaligned_inc, read_2ubyte_unaligned_inc, read_4ubyte_unaligned_inc,
    read_8ubyte_unaligned_inc, mem, v.
  split; [intros Hl; now rewrite H2|].
  split; [intros Hl; now rewrite H4|].
  split; [intros Hl; now rewrite H8|].
  intros [Hl|Hl]; rewrite Hl; simpl; [now rewrite H4|now rewrite H8].
Qed.
Print Assumptions C03_unaligned_read_inc_partial.
Example C03_unaligned_read_inc_nonvacuous :
  read_addr_unaligned_inc 4 LE true [0; 0; 1; 2] 0 = Ok (258, 4).
Proof. vm_compute; reflexivity. Qed.

(* The cursor-advancing three byte read uses the two byte reader: it does not
   return the three byte integer (finding F03). *)
Theorem C03_read_3ubyte_inc_refuted :
  exists host other b, bytes_ok b /\ zlen b = 3
    /\ read_3ubyte_unaligned_inc host other b 0 <> Ok (int_value (file_order host other) b, 3).
Proof.
  exists LE, false, [1; 2; 3]. split; [repeat constructor; unfold is_u8; lia|].
  vm_compute; intuition congruence.
Qed.
Print Assumptions C03_read_3ubyte_inc_refuted.
