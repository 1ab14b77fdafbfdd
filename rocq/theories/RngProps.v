(* C57: the ranges of a DIE.  C58: the locations of an attribute. *)
From Verif Require Import Base LebModel LebSpec LebProof DwModel Slice CfiSpec CfiProof CfiSafe FormModel FormSpec FormProps ReadProps RngModel RngSpec RngProof.

(* where the table of offsets starts: the unit's base attribute says so, or it follows the header
   at the start of the section *)
Inductive table_at (u : cu) (attr_base : Z) (d : bytes) : Z -> Prop :=
| T_attr : attr_base <> 0 -> table_at u attr_base d attr_base
| T_head osz len asz count : attr_base = 0 -> osz = 4 /\ 8 <= len < two32 - 1 \/ osz = 8 /\ 8 <= len < two63 -> asz = 4 \/ asz = 8 ->
    0 < count < two32 -> 8 + count * osz <= len -> (if osz =? 8 then 12 else 4) + len <= zlen d ->
    at_ d 0 (list_header (u_fle u) osz len asz count) -> table_at u attr_base d (zlen (list_header (u_fle u) osz len asz count)).
(* the list an attribute refers to starts at off *)
Inductive refers_to (u : cu) (a : attr) (indexed attr_base : Z) (d : bytes) : Z -> Prop :=
| R_direct off b : has_value u a (Unsigned off) b -> a_form a = FORM_sec_offset \/ (u_ver u <= 3 /\ (a_form a = FORM_data4 \/ a_form a = FORM_data8)) ->
    indexed <> a_form a -> refers_to u a indexed attr_base d off
| R_indexed i b t offs o : has_value u a (Unsigned i) b -> a_form a = indexed -> is_uleb indexed -> table_at u attr_base d t ->
    at_ d t (concat (map (enc (u_fle u) (u_osize u)) offs)) -> Forall (fun x => 0 <= x < 256 ^ u_osize u) offs -> znth offs i = Some o ->
    refers_to u a indexed attr_base d (t + o).

Lemma lists_base_ok : forall u ab (d : bytes) t, table_at u ab d t -> lists_base u ab (Some d) = Ok t.
Proof.
  intros u ab d t H. destruct H as [N|osz len asz count -> S A C L Z A0]; unfold lists_base.
  { replace (ab =? 0) with false by lia. reflexivity. }
  cbn [Z.eqb]. cbv zeta. unfold list_header in *. destruct S as [[-> S] | [-> S]].
  - cbn [Z.eqb Pos.eqb] in *. rewrite (rd_at _ _ _ 4 len ltac:(lia) ltac:(lia) (at_app1 _ _ _ _ A0)). cbn [obind].
    replace (len =? two32 - 1) with false by lia. apply at_app2 in A0. rewrite zlen_enc, Z.add_0_l in A0 by lia.
    replace ((zlen d - 8 <? 4) || (len <? 8) || (zlen d - 4 <? len)) with false by lia.
    rewrite (rd_at _ _ _ 2 5 ltac:(lia) ltac:(lia) (at_app1 _ _ _ _ A0)). cbn [obind Z.eqb Pos.eqb negb].
    apply at_app2 in A0. rewrite zlen_enc in A0 by lia. rewrite (rd_at1 _ _ _ asz _ ltac:(lia) A0). cbn [obind].
    replace (negb (asz =? 4) && negb (asz =? 8)) with false by lia. apply (at_app2 _ _ [asz]) in A0. change (zlen [asz]) with 1 in A0.
    rewrite (rd_at1 _ _ _ 0 _ ltac:(lia) A0). cbn [obind Z.eqb negb]. apply (at_app2 _ _ [0]) in A0. change (zlen [0]) with 1 in A0.
    change (4 + 2 + 1 + 1) with (4 + 4) in A0.
    rewrite (rd_at _ _ _ 4 count ltac:(lia) ltac:(lia) A0). cbn [obind]. replace (count <=? 0) with false by lia.
    assert (u32 (count * 4) <= count * 4) by (apply Z.mod_le; lia). replace (len - 8 <? u32 (count * 4)) with false by lia.
    rewrite !zlen_app, !zlen_enc by lia. reflexivity.
  - cbn [Z.eqb Pos.eqb] in *. rewrite <- app_assoc in A0. rewrite (rd_at _ _ _ 4 (two32 - 1) ltac:(lia) ltac:(lia) (at_app1 _ _ _ _ A0)). cbn [obind].
    rewrite Z.eqb_refl. apply at_app2 in A0. rewrite zlen_enc, Z.add_0_l in A0 by lia.
    replace (zlen d - 8 <? 4) with false by lia. rewrite (rd_at _ _ _ 8 len ltac:(lia) ltac:(lia) (at_app1 _ _ _ _ A0)). cbn [obind].
    apply at_app2 in A0. rewrite zlen_enc in A0 by lia. change (4 + 8) with 12 in A0.
    replace ((zlen d - 8 <? 12) || (len <? 8) || (zlen d - 12 <? len)) with false by lia.
    rewrite (rd_at _ _ _ 2 5 ltac:(lia) ltac:(lia) (at_app1 _ _ _ _ A0)). cbn [obind Z.eqb Pos.eqb negb].
    apply at_app2 in A0. rewrite zlen_enc in A0 by lia. rewrite (rd_at1 _ _ _ asz _ ltac:(lia) A0). cbn [obind].
    replace (negb (asz =? 4) && negb (asz =? 8)) with false by lia. apply (at_app2 _ _ [asz]) in A0. change (zlen [asz]) with 1 in A0.
    rewrite (rd_at1 _ _ _ 0 _ ltac:(lia) A0). cbn [obind Z.eqb negb]. apply (at_app2 _ _ [0]) in A0. change (zlen [0]) with 1 in A0.
    change (12 + 2 + 1 + 1) with (12 + 4) in A0.
    rewrite (rd_at _ _ _ 4 count ltac:(lia) ltac:(lia) A0). cbn [obind]. replace (count <=? 0) with false by lia.
    assert (u32 (count * 8) <= count * 8) by (apply Z.mod_le; lia). replace (len - 8 <? u32 (count * 8)) with false by lia.
    rewrite !zlen_app, !zlen_enc by lia. reflexivity.
Qed.
Lemma initial_ok : forall u a indexed ab (d : bytes) off err, zlen d < two63 -> refers_to u a indexed ab d off -> off < zlen d ->
  initial_offset u a indexed ab (Some d) err = Ok off /\ 0 <= off.
Proof.
  intros u a indexed ab d off err DL H OD. destruct H as [off b H F NI|i b t offs o H F IU T TA OB X]; unfold initial_offset.
  - replace (a_form a =? indexed) with false by lia. unfold formptr.
    assert (G : forall w, In (a_form a, w) (fixed_width (params_of u)) -> (w = 4 \/ w = 8) -> read_offset (u_fle u) (u_mem u) (a_valp a) w (Some d) 0 = Ok off /\ 0 <= off).
    { intros w W W48. destruct (fixed_read u a _ b w H W) as (n & E & N & R & P & B). injection E as <-. pose proof H as (_ & E & M & _).
      unfold read_offset, read_address, in_section. replace (negb _) with true by lia.
      replace (if w =? 4 then 4 else 8) with w by (destruct W48 as [-> | ->]; reflexivity). rewrite R. cbn [obind]. unfold offset_in_section.
      pose proof (zlen_nonneg _ d). replace ((zlen d <? off) || (zlen d <? 0) || (zlen d - 0 <? off)) with false by lia. cbn. split; [reflexivity|lia]. }
    pose proof H as ([_ SO] & _).
    assert (K : forall o, o = Ok off /\ 0 <= off -> (off <- o ;; (if two63 <=? off then UB else if zlen d <=? off then Err DWARF_E_INVALID_DWARF else Ok off)) = Ok off /\ 0 <= off).
    { intros o [-> O0]. cbn [obind]. replace (two63 <=? off) with false by lia. replace (zlen d <=? off) with false by lia. split; [reflexivity|exact O0]. }
    apply K. destruct F as [F | [V [F | F]]]; rewrite F; cbn [Z.eqb Pos.eqb FORM_sec_offset FORM_data4 FORM_data8 orb].
    + apply G; [rewrite F; cbn; tauto|exact SO].
    + replace (3 <? u_ver u) with false by lia. apply G; [rewrite F; cbn; tauto|lia].
    + replace (3 <? u_ver u) with false by lia. apply G; [rewrite F; cbn; tauto|lia].
  - rewrite F, Z.eqb_refl. destruct (uleb_read u a _ b H ltac:(rewrite F; exact IU)) as (n & E & R & L & N). injection E as <-.
    replace (u_endp u <=? a_valp a) with false by lia. rewrite R. cbn [obind]. pose proof (lists_base_ok _ _ _ _ T) as LB. unfold bytes in *. rewrite LB. cbn [obind].
    pose proof H as ([_ SO] & _). unfold znth in X. destruct ((0 <=? i) && (i <? zlen offs)) eqn:IX; [|discriminate].
    apply nth_error_split in X as (l1 & l2 & -> & L1).
    assert (CL : forall l, zlen (concat (map (enc (u_fle u) (u_osize u)) l)) = u_osize u * zlen l).
    { induction l as [|y l IH]; [cbn; lia|]. cbn [map concat]. rewrite zlen_app, zlen_enc, IH, zlen_cons by lia. lia. }
    rewrite map_app, concat_app in TA. cbn [map concat] in TA. pose proof (at_bound _ _ _ TA) as [T0 _].
    pose proof (at_app2 _ _ _ _ TA) as A2. rewrite CL in A2. apply at_app1 in A2. replace (zlen l1) with i in A2 by (unfold zlen; lia).
    pose proof (at_bound _ _ _ A2) as [_ B2]. rewrite zlen_enc in B2 by lia.
    apply Forall_app in OB as [_ OB]. pose proof (Forall_inv OB) as XB. cbn beta in XB.
    assert (I0 : 0 <= u_osize u * i) by nia.
    replace (zlen d <? u_osize u) with false by lia. replace (zlen d - u_osize u <? t) with false by lia.
    assert (IM : i <= (zlen d - u_osize u - t) / u_osize u) by (apply Z.div_le_lower_bound; lia).
    replace ((zlen d - u_osize u - t) / u_osize u <? i) with false by lia. rewrite (Z.mul_comm i).
    replace (if u_osize u =? 4 then 4 else 8) with (u_osize u) by (destruct SO as [-> | ->]; reflexivity).
    rewrite (rd_at _ _ _ (u_osize u) o ltac:(lia) XB A2). cbn [obind]. rewrite u64_small by lia. rewrite (Z.add_comm o). split; [reflexivity|lia].
Qed.

(* the base address of the unit: the value of its DW_AT_low_pc, of its DW_AT_entry_pc, or zero *)
Inductive base_of (u : cu) : option attr -> option attr -> Z -> Prop :=
| B_low a x b e : has_value u a (Unsigned x) b -> a_form a = FORM_addr -> base_of u (Some a) e x
| B_entry a x b : has_value u a (Unsigned x) b -> a_form a = FORM_addr -> base_of u None (Some a) x
| B_none : base_of u None None 0.
Lemma base_ok : forall u ao da l e x, base_of u l e x -> x <> two64 - 1 -> base_address u ao da l e = Ok x.
Proof.
  intros u ao da l e x H N. unfold base_address.
  destruct H as [a x b e H F|a x b H F|]; try (destruct (C49_addr u a _ b ao da H F) as (n & E & R); injection E as <-; rewrite R);
    cbn [or_else obind]; try (replace (x =? two64 - 1) with false by lia; reflexivity). reflexivity.
Qed.

Section Enumerate.
Variables (u : cu) (ao : option Z) (da : option bytes) (addrs : list Z).
Hypothesis (SZ : sizes_ok u) (AD : addr_table u ao da addrs).
Notation kind := (if u_ver u <? 5 then KPair else KRng).
Lemma section_fuel_ok : forall P k (pay : P -> bytes -> Prop) l bl (d : bytes) p, list_bytes (u_fle u) (u_asize u) k pay l bl -> at_ d p bl ->
  (List.length l < section_fuel d)%nat.
Proof using SZ.
  intros P k pay l bl d p L A. apply (list_len u SZ) in L. apply at_bound in A. unfold section_fuel, zlen in *. lia.
Qed.
Lemma ranges_go : forall s lo en ab (d : bytes) r l bl off base fuel, list_bytes (u_fle u) (u_asize u) kind no_payload l bl -> at_ d off bl -> denotes addrs base l r ->
  2 <= off -> zlen d < two63 -> (List.length r < fuel)%nat -> ranges_all u ao da fuel s lo en ab (Some d) off base = Ok (map fst r).
Proof.
  intros s lo en ab d r. induction r as [|[[x y] []] r IH]; intros l bl off base fuel L A D OF DL F; (destruct fuel as [|fuel]; [lia|]); cbn [ranges_all];
    pose proof (at_bound _ _ _ A) as [_ B]; pose proof (list_len1 u SZ _ _ _ _ _ L) as B1;
    pose proof (next_pair_ok u ao da addrs SZ AD kind l bl L (section_fuel d) d off base _ (section_fuel_ok _ _ _ _ _ _ _ L A) A D) as N;
    unfold ranges; replace (off =? 0) with false by lia; replace (off =? 1) with false by lia; unfold offset_in_section;
    replace ((zlen d <? off) || (zlen d <? 1) || (zlen d - 1 <? off)) with false by lia; cbn [obind]; replace (two63 <=? off) with false by lia.
  - rewrite N. reflexivity.
  - destruct N as (l' & bl' & q & base' & N & PQ & _ & _ & L' & A' & D'). rewrite N. cbn [obind].
    rewrite (IH l' bl' q base' fuel L' A' D' ltac:(lia) DL ltac:(cbn in F; lia)). reflexivity.
Qed.
End Enumerate.

(* A DIE with a low and a high pc has exactly that one range; the high pc is an address, or a
   constant relative to the low pc. *)
Theorem C57_contiguous : forall u ao da s a h lo v b b' hi lo' en ab sec base0 fuel,
  at_low s = Some a -> has_value u a (Unsigned lo) b -> a_form a = FORM_addr -> at_high s = Some h -> has_value u h (Unsigned v) b' ->
  a_form h = FORM_addr /\ hi = v \/ In (a_form h) [11; 5; 6; 7; 15] /\ hi = (lo + v) mod two64 ->
  (2 <= fuel)%nat -> ranges_all u ao da fuel s lo' en ab sec 0 base0 = Ok [(lo, hi)].
Proof.
  intros u ao da s a h lo v b b' hi lo' en ab sec base0 fuel AL HL FL AH HH C F. destruct fuel as [|[|fuel]]; [lia|lia|]. 
  destruct (C49_addr u a _ b ao da HL FL) as (n & E & RL). injection E as <-.
  assert (LP : lowpc u ao da s = Ok lo) by (unfold lowpc; rewrite AL; exact RL).
  assert (HP : highpc u ao da s = Ok hi).
  { unfold highpc. rewrite AH. destruct C as [[FH ->] | [FH ->]].
    - destruct (C49_addr u h _ b' ao da HH FH) as (n & E & RH). injection E as <-. rewrite RH. reflexivity.
    - destruct (C49_udata u h _ b' HH ltac:(cbn in FH |- *; tauto)) as (n & E & RH). injection E as <-.
      assert (FE : formaddr u h ao da = Err DWARF_E_NO_ADDR).
      { unfold formaddr. cbn in FH. destruct FH as [FH | [FH | [FH | [FH | [FH | []]]]]]; rewrite <- FH; reflexivity. }
      rewrite FE. cbn [or_else]. rewrite LP. cbn [obind]. rewrite RH. reflexivity. }
  cbn [ranges_all]. unfold ranges. cbn [Z.eqb]. rewrite HP, LP. cbn [obind or_else Z.eqb Pos.eqb]. reflexivity.
Qed.
Print Assumptions C57_contiguous.

(* A DIE with a range list and without a high pc has exactly the ranges its list denotes, in that
   order; a DIE with neither has none. *)
Theorem C57_ranges : forall u ao da addrs s a lo en ab (d : bytes) l bl r off base base0 fuel, sizes_ok u -> addr_table u ao da addrs -> zlen d < two63 ->
  at_high s = None -> at_ranges s = Some a -> base_of u lo en base -> base <> two64 - 1 -> refers_to u a FORM_rnglistx ab d off ->
  list_bytes (u_fle u) (u_asize u) (if u_ver u <? 5 then KPair else KRng) no_payload l bl -> at_ d off bl -> denotes addrs base l r ->
  (List.length r < fuel)%nat -> ranges_all u ao da fuel s lo en ab (Some d) 0 base0 = Ok (map fst r).
Proof.
  intros u ao da addrs s a lo en ab d l bl r off base base0 fuel SZ AD DL AH AR BO BN RT L A D F. destruct fuel as [|fuel]; [lia|].
  pose proof (at_bound _ _ _ A) as [_ B]. pose proof (list_len1 u SZ _ _ _ _ _ L) as B1.
  destruct (initial_ok u a _ ab d off DWARF_E_NO_DEBUG_RANGES DL RT ltac:(lia)) as [IO O0].
  pose proof (next_pair_ok u ao da addrs SZ AD _ l bl L (section_fuel d) d off base _ (section_fuel_ok u SZ _ _ _ _ _ _ _ L A) A D) as N.
  cbn [ranges_all]. unfold ranges at 1. unfold highpc at 1. rewrite AH, AR. cbn [obind or_else Z.eqb]. rewrite (base_ok u ao da _ _ _ BO BN). cbn [obind]. rewrite IO. cbn [obind].
  replace (two63 <=? off) with false by lia. destruct r as [|[[x y] []] r].
  - rewrite N. reflexivity.
  - destruct N as (l' & bl' & q & base' & N & PQ & P2 & _ & L' & A' & D'). rewrite N. cbn [obind]. specialize (P2 ltac:(destruct (u_ver u <? 5); discriminate)).
    rewrite (ranges_go u ao da addrs SZ AD s lo en ab d r l' bl' q base' fuel L' A' D' ltac:(lia) DL ltac:(cbn in F; lia)). reflexivity.
Qed.
Print Assumptions C57_ranges.
Theorem C57_none : forall u ao da s lo en ab sec base0, at_high s = None -> at_ranges s = None -> ranges_all u ao da 1 s lo en ab sec 0 base0 = Ok [].
Proof. intros u ao da s lo en ab sec base0 H R. cbn [ranges_all]. unfold ranges, highpc. rewrite H, R. reflexivity. Qed.
Print Assumptions C57_none.

(* dwarf_haspc says whether an address lies in one of the ranges that dwarf_ranges enumerates. *)
Theorem C57_haspc : forall u ao da s lo en ab sec pc l fuel off base, ranges_all u ao da fuel s lo en ab sec off base = Ok l ->
  exists b, haspc u ao da fuel s lo en ab sec off base pc = Ok b /\ (b = true <-> exists x y, In (x, y) l /\ x <= pc < y).
Proof.
  intros u ao da s lo en ab sec pc l fuel. revert l. induction fuel as [|fuel IH]; intros l off base H; [discriminate|]. cbn [ranges_all haspc] in *.
  destruct (ranges u ao da s lo en ab sec off base) as [[[[[x y] off'] base']|]| | |]; cbn [obind] in *; try discriminate.
  - destruct (ranges_all u ao da fuel s lo en ab sec off' base') as [l'| | |] eqn:E; try discriminate. injection H as <-.
    destruct ((x <=? pc) && (pc <? y)) eqn:C.
    + exists true. split; [reflexivity|]. split; [|reflexivity]. intros _. exists x, y. split; [left; reflexivity|lia].
    + destruct (IH l' off' base' E) as (b & R & W). exists b. split; [exact R|]. rewrite W. split.
      * intros (x' & y' & IN & P). exists x', y'. split; [right; exact IN|exact P].
      * intros (x' & y' & [EQ | IN] & P); [injection EQ as <- <-; lia|]. exists x', y'. split; assumption.
  - injection H as <-. exists false. split; [reflexivity|]. split; [discriminate|]. intros (x & y & [] & _).
Qed.
Print Assumptions C57_haspc.

(* Any section contents: once the start of a list is known, every call of dwarf_ranges reads only
   in the section and the offsets it returns grow and stay in the section, so a caller's loop
   ends.  Missing: the start itself, see C57_start_refuted and C57_header_refuted. *)
Theorem C57_walk_partial : forall u ao da s lo en ab (d : bytes), sizes_ok u -> (forall b, ao = Some b -> 0 <= b) -> (forall t, da = Some t -> zlen t < two63) ->
  bytes_ok d -> zlen d < two63 -> forall off base, 2 <= off ->
  safe (ranges u ao da s lo en ab (Some d) off base) (fun r => match r with Some (_, _, q, _) => off < q <= zlen d | None => True end) /\
  exists n, safe (ranges_all u ao da n s lo en ab (Some d) off base) (fun _ => True).
Proof.
  intros u ao da s lo en ab d SZ AO DA B DL.
  assert (ST : forall off base, 2 <= off -> safe (ranges u ao da s lo en ab (Some d) off base) (fun r => match r with Some (_, _, q, _) => off < q <= zlen d | None => True end)).
  { intros off base OF. unfold ranges. replace (off =? 0) with false by lia. replace (off =? 1) with false by lia. unfold offset_in_section.
    destruct ((zlen d <? off) || (zlen d <? 1) || (zlen d - 1 <? off)) eqn:E; [exact Logic.I|]. cbn [obind]. replace (two63 <=? off) with false by lia.
    apply next_pair_safe; try assumption; unfold section_fuel, zlen in *; lia. }
  intros off base OF. split; [exact (ST off base OF)|]. exists (S (Z.to_nat (zlen d - off))).
  assert (G : forall n off base, 2 <= off -> zlen d - off < Z.of_nat n -> (0 < n)%nat -> safe (ranges_all u ao da n s lo en ab (Some d) off base) (fun _ => True)).
  { clear off base OF. induction n as [|n IH]; intros off base OF N N0; [lia|]. cbn [ranges_all]. eapply safe_bind; [exact (ST off base OF)|].
    intros [[[[x y] q] base']|] Q; [|exact Logic.I]. eapply safe_bind; [apply (IH q base'); lia|]. intros; exact Logic.I. }
  apply G; lia.
Qed.
Print Assumptions C57_walk_partial.
(* The start of an indexed list is the table's entry plus the table's own offset and is not
   checked against the section: with 8-byte offsets a table entry such as 2^64 - 32 makes
   dwarf_ranges read in front of the section. *)
Theorem C57_start_refuted : exists u a d b, bytes_ok d /\ zlen d = 28 /\ has_value u a (Unsigned 0) b /\ a_form a = FORM_rnglistx /\
  ranges u None None (Pcs None None (Some a)) None None 20 (Some d) 0 0 = UB.
Proof.
  exists (Cu [0; 0] 0 2 8 8 5 true), (Attr 85 FORM_rnglistx 0 []), (repeat 0 20 ++ enc true 8 (two64 - 32)), [0].
  split; [repeat (constructor; [split; [discriminate|reflexivity]|]); constructor|]. split; [reflexivity|].
  split; [|split; [reflexivity|vm_compute; reflexivity]].
  split; [split; cbn; lia|]. split; [cbn; lia|]. split; [reflexivity|]. split.
  - apply H_uleb; [cbn; tauto|]. split; [cbn; lia|]. split; [cbn; lia|]. split; reflexivity.
  - split; [split; [cbn; lia|split; [cbn; lia|reflexivity]]|cbn; lia].
Qed.
Print Assumptions C57_start_refuted.
(* Without a base attribute the header at the start of the section is consulted; its first four
   bytes are read even when the section is shorter. *)
Theorem C57_header_refuted : forall u d, zlen d < 4 -> lists_base u 0 (Some d) = UB.
Proof.
  intros u d L. unfold lists_base. cbn [Z.eqb]. cbv zeta. unfold rd at 1. replace ((0 <=? 0) && (0 + 4 <=? zlen d)) with false by lia. reflexivity.
Qed.
Print Assumptions C57_header_refuted.
(* In DWARF 2 and 3 any constant form is taken for the list's offset; one above 2^63 gives a
   pointer in front of the section that passes the check against the section's end. *)
Theorem C57_formptr_refuted : exists u a d b, zlen d = 1 /\ has_value u a (Unsigned (two64 - 1)) b /\ a_form a = 15 /\
  ranges u None None (Pcs None None (Some a)) None None 0 (Some d) 0 0 = UB.
Proof.
  pose (m := [255; 255; 255; 255; 255; 255; 255; 255; 255; 1]).
  exists (Cu (m ++ [0]) 0 11 8 4 3 true), (Attr 85 15 0 []), [0], m.
  split; [reflexivity|]. split; [|split; [reflexivity|vm_compute; reflexivity]].
  split; [split; cbn; lia|]. split; [cbn; lia|]. split; [reflexivity|]. split.
  - apply H_uleb; [cbn; tauto|]. split; [cbn; lia|]. split; [cbn; lia|]. split; reflexivity.
  - split; [split; [cbn; lia|split; [cbn; lia|reflexivity]]|cbn; lia].
Qed.
Print Assumptions C57_formptr_refuted.

(* ---- C58 ---- *)
(* a reported entry has the range and the expression of the list's entry *)
Definition same_loc (d : bytes) (e : locent) (t : Z * Z * bytes) : Prop :=
  le_begin e = fst (fst t) /\ le_end e = snd (fst t) /\ le_len e = zlen (snd t) /\ at_ d (le_data e) (snd t).
Definition in_list (d : bytes) (r : located) (t : Z * Z * bytes) : Prop := match r with LList e => same_loc d e t | _ => False end.
Notation loc_kind u split := (if u_ver u <? 5 then if split then KGnu else KPair else KLoc).
Section EnumerateLoc.
Variables (u : cu) (ao : option Z) (da : option bytes) (addrs : list Z).
Hypothesis (SZ : sizes_ok u) (AD : addr_table u ao da addrs).
Lemma wanted_all : forall r : Z * Z, wanted (two64 - 1) r.
Proof. left. reflexivity. Qed.
Lemma locs_go : forall (split : bool) a lo en ab (d : bytes), zlen d < two63 -> forall r l bl off base fuel,
  list_bytes (u_fle u) (u_asize u) (loc_kind u split) (expr_payload (u_fle u) (loc_kind u split)) l bl -> at_ d off bl -> denotes addrs base l r ->
  2 <= off -> (List.length r < fuel)%nat ->
  exists res, locations_all u ao da fuel split a lo en ab (Some d) off base = Ok res /\ Forall2 (in_list d) res r.
Proof.
  intros split a lo en ab d DL. induction r as [|t r IH]; intros l bl off base fuel L A D OF F; (destruct fuel as [|fuel]; [lia|]); cbn [locations_all];
    pose proof (at_bound _ _ _ A) as [_ B]; pose proof (list_len1 u SZ _ _ _ _ _ L) as B1;
    pose proof (next_loc_ok u ao da addrs SZ AD _ l bl L (section_fuel d) d off base _ (two64 - 1) (section_fuel_ok u SZ _ _ _ _ _ _ _ L A) DL A D) as N;
    unfold locations; replace (off =? 0) with false by lia; replace (off =? 1) with false by lia; replace (two63 <=? off) with false by lia.
  - destruct N as [[_ N] | (r1 & b & e & x & r2 & ? & ? & ? & ? & ? & E & _)]; [|destruct r1; discriminate E]. rewrite N. exists []. split; [reflexivity|constructor].
  - destruct N as [[N _] | (r1 & b & e & x & r2 & l' & bl' & data & q & base' & E & N1 & _ & N & AX & PQ & _ & L' & A' & D')].
    { exfalso. apply Forall_inv in N. apply N, wanted_all. }
    destruct r1 as [|t1 r1]; [|exfalso; apply Forall_inv in N1; apply N1, wanted_all]. injection E as -> <-. rewrite N. cbn [obind le_next le_base].
    destruct (IH l' bl' q base' fuel L' A' D' ltac:(lia) ltac:(cbn in F; lia)) as (res & R & S). rewrite R. cbn [obind].
    eexists. split; [reflexivity|]. constructor; [|exact S]. cbn. split; [reflexivity|]. split; [reflexivity|]. split; [reflexivity|exact AX].
Qed.
Lemma addr_go : forall k (d : bytes) address, zlen d < two63 -> forall max r l bl off base,
  list_bytes (u_fle u) (u_asize u) k (expr_payload (u_fle u) k) l bl -> at_ d off bl -> denotes addrs base l r ->
  exists res, loc_addr_loop u ao da max k d off base address = Ok res /\
    Forall2 (same_loc d) res (firstn max (filter (fun t => (address =? two64 - 1) || ((fst (fst t) <=? address) && (address <? snd (fst t)))) r)).
Proof.
  intros k d address DL. set (w := fun t : Z * Z * bytes => (address =? two64 - 1) || ((fst (fst t) <=? address) && (address <? snd (fst t)))).
  assert (W : forall t, w t = true <-> wanted address (fst t)) by (intros t; unfold w, wanted; lia).
  assert (WF : forall r1, Forall (fun t => ~ wanted address (fst t)) r1 -> filter w r1 = []).
  { induction r1 as [|t r1 IH]; intros H; [reflexivity|]. cbn [filter]. pose proof (Forall_inv H) as N. cbn beta in N. rewrite <- W in N.
    destruct (w t); [contradiction N; reflexivity|]. apply IH, (Forall_inv_tail H). }
  clearbody w. induction max as [|max IH]; intros r l bl off base L A D; [exists []; split; [reflexivity|constructor]|]. cbn [loc_addr_loop].
  pose proof (next_loc_ok u ao da addrs SZ AD _ l bl L (section_fuel d) d off base _ address (section_fuel_ok u SZ _ _ _ _ _ _ _ L A) DL A D) as N.
  destruct N as [[N1 N] | (r1 & b & e & x & r2 & l' & bl' & data & q & base' & -> & N1 & NW & N & AX & PQ & _ & L' & A' & D')]; rewrite N; cbn [obind le_next le_base].
  - rewrite (WF _ N1). exists []. split; [reflexivity|constructor].
  - destruct (IH r2 l' bl' q base' L' A' D') as (res & R & S). rewrite R. cbn [obind]. eexists. split; [reflexivity|].
    rewrite filter_app, (WF _ N1). cbn [app filter]. assert (E : w (b, e, x) = true) by (apply W; exact NW). rewrite E. cbn [firstn].
    constructor; [|exact S]. split; [reflexivity|]. split; [reflexivity|]. split; [reflexivity|exact AX].
Qed.
End EnumerateLoc.
Lemma not_block : forall u a ab d off, refers_to u a FORM_loclistx ab d off -> formblock u a = Err DWARF_E_NO_BLOCK /\ a_form a <> FORM_data16.
Proof.
  intros u a ab d off H. unfold formblock. destruct H as [off b _ [F | [_ [F | F]]] _|i b t offs o _ F _ _ _ _ _]; rewrite F; split; try reflexivity; discriminate.
Qed.

(* dwarf_getlocations on an attribute that refers to a location list enumerates exactly the
   ranges of the list, each with its expression, in that order. *)
Theorem C58_list : forall u ao da addrs (split : bool) a lo en ab (d : bytes) l bl r off base base0 fuel, sizes_ok u -> addr_table u ao da addrs -> zlen d < two63 ->
  base_of u lo en base -> base <> two64 - 1 -> refers_to u a FORM_loclistx ab d off ->
  list_bytes (u_fle u) (u_asize u) (loc_kind u split) (expr_payload (u_fle u) (loc_kind u split)) l bl -> at_ d off bl -> denotes addrs base l r ->
  (List.length r < fuel)%nat ->
  exists res, locations_all u ao da fuel split a lo en ab (Some d) 0 base0 = Ok res /\ Forall2 (in_list d) res r.
Proof.
  intros u ao da addrs split a lo en ab d l bl r off base base0 fuel SZ AD DL BO BN RT L A D F. destruct fuel as [|fuel]; [lia|].
  pose proof (at_bound _ _ _ A) as [_ B]. pose proof (list_len1 u SZ _ _ _ _ _ L) as B1.
  destruct (initial_ok u a _ ab d off DWARF_E_NO_DEBUG_LOC DL RT ltac:(lia)) as [IO O0]. destruct (not_block _ _ _ _ _ RT) as [NB ND].
  pose proof (next_loc_ok u ao da addrs SZ AD _ l bl L (section_fuel d) d off base _ (two64 - 1) (section_fuel_ok u SZ _ _ _ _ _ _ _ L A) DL A D) as N.
  cbn [locations_all]. unfold locations at 1. cbn [Z.eqb]. replace (a_form a =? FORM_data16) with false by lia. rewrite NB, Z.eqb_refl.
  rewrite (base_ok u ao da _ _ _ BO BN). cbn [obind]. rewrite IO. cbn [obind]. replace (two63 <=? off) with false by lia. destruct r as [|t r].
  - destruct N as [[_ N] | (r1 & b & e & x & r2 & ? & ? & ? & ? & ? & E & _)]; [|destruct r1; discriminate E]. rewrite N. exists []. split; [reflexivity|constructor].
  - destruct N as [[N _] | (r1 & b & e & x & r2 & l' & bl' & data & q & base' & E & N1 & _ & N & AX & PQ & _ & L' & A' & D')].
    { exfalso. apply Forall_inv in N. apply N. left. reflexivity. }
    destruct r1 as [|t1 r1]; [|exfalso; apply Forall_inv in N1; apply N1; left; reflexivity]. injection E as -> <-. rewrite N. cbn [obind le_next le_base].
    destruct (locs_go u ao da addrs SZ AD split a lo en ab d DL r l' bl' q base' fuel L' A' D' ltac:(lia) ltac:(cbn in F; lia)) as (res & R & S). rewrite R. cbn [obind].
    eexists. split; [reflexivity|]. constructor; [|exact S]. cbn. split; [reflexivity|]. split; [reflexivity|]. split; [reflexivity|exact AX].
Qed.
Print Assumptions C58_list.
(* dwarf_getlocation_addr reports, in order and up to the number asked for, exactly the entries
   whose range contains the address. *)
Theorem C58_addr : forall u ao da addrs (split : bool) a lo en ab (d : bytes) l bl r off base address max, sizes_ok u -> addr_table u ao da addrs -> zlen d < two63 ->
  base_of u lo en base -> base <> two64 - 1 -> refers_to u a FORM_loclistx ab d off -> address <> two64 - 1 ->
  list_bytes (u_fle u) (u_asize u) (loc_kind u split) (expr_payload (u_fle u) (loc_kind u split)) l bl -> at_ d off bl -> denotes addrs base l r ->
  exists res, location_addr u ao da split a lo en ab (Some d) address max = Ok res /\
    Forall2 (same_loc d) res (firstn max (filter (fun t => (fst (fst t) <=? address) && (address <? snd (fst t))) r)).
Proof.
  intros u ao da addrs split a lo en ab d l bl r off base address max SZ AD DL BO BN RT NA L A D.
  pose proof (at_bound _ _ _ A) as [_ B]. pose proof (list_len1 u SZ _ _ _ _ _ L) as B1.
  destruct (initial_ok u a _ ab d off DWARF_E_NO_DEBUG_LOC DL RT ltac:(lia)) as [IO O0]. unfold location_addr.
  rewrite (base_ok u ao da _ _ _ BO BN). cbn [obind]. rewrite IO. cbn [obind]. replace (two63 <=? off) with false by lia.
  destruct (addr_go u ao da addrs SZ AD _ d address DL max r l bl off base L A D) as (res & R & S). exists res. split; [exact R|].
  replace (address =? two64 - 1) with false in S by lia. exact S.
Qed.
Print Assumptions C58_addr.
(* An attribute whose value is an expression has this one location. *)
Theorem C58_single : forall u ao da split a x b lo en ab sec base0 fuel, has_value u a (Bytes x) b -> a_form a <> FORM_indirect -> a_form a <> FORM_data16 ->
  (2 <= fuel)%nat -> exists p, locations_all u ao da fuel split a lo en ab sec 0 base0 = Ok [LBlock p (zlen x)] /\ at_ (u_mem u) p x.
Proof.
  intros u ao da split a x b lo en ab sec base0 fuel H NI ND F. destruct fuel as [|[|fuel]]; [lia|lia|].
  destruct (C49_block u a x b H NI) as (p & R & A & _). exists p. split; [|exact A]. cbn [locations_all]. unfold locations at 1. cbn [Z.eqb].
  replace (a_form a =? FORM_data16) with false by lia. rewrite R. reflexivity.
Qed.
Print Assumptions C58_single.
(* Any section contents: a call of dwarf_getlocations reads only in the section, and the
   expression it reports lies in the section behind the offset given, with the next offset at its
   end.  Missing: expressions of .debug_loclists with a length of 2^63 or more, see
   C58_length_refuted. *)
Theorem C58_walk_partial : forall u ao da k d p base, sizes_ok u -> (forall b, ao = Some b -> 0 <= b) -> (forall t, da = Some t -> zlen t < two63) ->
  bytes_ok d -> zlen d < two63 -> 0 <= p ->
  safe (next_loc u ao da (section_fuel d) k d p base (two64 - 1)) (fun r => match r with None => True | Some e =>
    (k = KLoc \/ k = KRng) /\ two63 <= le_len e < two64 \/
    0 <= le_len e /\ p < le_data e /\ le_data e + le_len e = le_next e /\ le_next e <= zlen d end).
Proof.
  intros u ao da k d p base SZ AO DA B DL P. apply next_loc_safe; try assumption; unfold section_fuel, zlen in *; lia.
Qed.
Print Assumptions C58_walk_partial.
(* The length of an expression in .debug_loclists is compared as a signed number: 2^64 - 1 passes,
   the reported expression runs past the section, and the next offset lies before its start. *)
Theorem C58_length_refuted : exists d, bytes_ok d /\ zlen d = 12 /\ forall u ao da, 
  next_loc u ao da (section_fuel d) KLoc d 0 0 (two64 - 1) = Ok (Some (Locent 0 (two64 - 1) 11 (two64 - 1) 10 0)).
Proof.
  exists [5; 255; 255; 255; 255; 255; 255; 255; 255; 255; 1; 0].
  split; [repeat (constructor; [split; [discriminate|reflexivity]|]); constructor|]. split; [reflexivity|].
  intros [mem s e [] [] [] []] ao da; try reflexivity; vm_compute; reflexivity.
Qed.
Print Assumptions C58_length_refuted.
(* With a length of 2^64 - 13 the entry leads back to itself: dwarf_getlocation_addr never
   returns when asked for an address outside the entry's range. *)
Theorem C58_loop_refuted : exists d, bytes_ok d /\ zlen d = 13 /\ forall fuel u ao da, next_loc u ao da fuel KLoc d 0 0 7 = Fuel.
Proof.
  exists [4; 0; 0; 243; 255; 255; 255; 255; 255; 255; 255; 255; 1].
  split; [repeat (constructor; [split; [discriminate|reflexivity]|]); constructor|]. split; [reflexivity|].
  set (d := [4; 0; 0; 243; 255; 255; 255; 255; 255; 255; 255; 255; 1]).
  induction fuel as [|fuel IH]; intros u ao da; [reflexivity|]. cbn [next_loc].
  assert (E1 : read_pair u ao da KLoc d 0 0 = Ok (IPair 0 0 3)) by (destruct u as [mem s e [] [] [] []]; vm_compute; reflexivity). rewrite E1. cbn [obind].
  assert (E2 : loc_block u KLoc d 3 = Ok (two64 - 13, 13)) by (vm_compute; reflexivity). rewrite E2. cbn [obind].
  replace (zlen d - 13 <? s64 (two64 - 13)) with false by (vm_compute; reflexivity). cbn [Z.eqb Pos.eqb Z.sub negb].
  replace (13 + s64 (two64 - 13)) with 0 by (vm_compute; reflexivity).
  match goal with |- (if ?c then _ else _) = _ => replace c with true by (vm_compute; reflexivity) end. apply IH.
Qed.
Print Assumptions C58_loop_refuted.

(* ---- the hypotheses can be met ---- *)
Definition ex_unit : cu := Cu ([0; 0; 0; 0; 0; 0; 0; 0] ++ [12; 0; 0; 0; 16] ++ [0; 0; 0; 0; 0; 0; 0; 0] ++ [0; 16; 0; 0; 0; 0; 0; 0]) 0 29 8 4 5 true.
Definition ex_attr : attr := Attr 85 FORM_sec_offset 8 [].
(* offset pair; base address; start and length; indexed start and end *)
Definition ex_entries : list (lent * unit) :=
  [(EOffset 1 5, tt); (EBase 4096, tt); (EOffset 2 3, tt); (EStartLen 64 9, tt); (EStartxEndx 0 1, tt)].
Definition ex_bytes : bytes := [4; 1; 5] ++ (5 :: enc true 8 4096) ++ [4; 2; 3] ++ (7 :: enc true 8 64 ++ [9]) ++ [2; 0; 1] ++ [0].
Definition ex_addrs : list Z := [256; 272].
Definition ex_tab : bytes := enc true 8 256 ++ enc true 8 272.
Lemma uleb1 : forall x, 0 <= x < 128 -> uleb_of x [x].
Proof. intros x H. split; [cbn; lia|]. split; [cbn; lia|]. split; [unfold uleb_value; cbn; rewrite ?Z.mod_small by lia; lia|lia]. Qed.
Example C57_nonvacuous : exists off base r,
  refers_to ex_unit ex_attr FORM_rnglistx 0 (repeat 0 12 ++ ex_bytes) off /\ base_of ex_unit None None base /\
  list_bytes true 8 KRng no_payload ex_entries ex_bytes /\ at_ (repeat 0 12 ++ ex_bytes) off ex_bytes /\ denotes ex_addrs base ex_entries r /\
  addr_table ex_unit (Some 0) (Some ex_tab) ex_addrs /\ List.length r = 4%nat /\
  ranges_all ex_unit (Some 0) (Some ex_tab) 5 (Pcs None None (Some ex_attr)) None None 0 (Some (repeat 0 12 ++ ex_bytes)) 0 0 =
    Ok [(1, 5); (4098, 4099); (64, 73); (256, 272)].
Proof.
  exists 12, 0, [(1, 5, tt); (4098, 4099, tt); (64, 73, tt); (256, 272, tt)].
  split.
  { apply (R_direct _ _ _ _ _ 12 [12; 0; 0; 0]); [|left; reflexivity|discriminate].
    split; [split; cbn; lia|]. split; [cbn; lia|]. split; [reflexivity|].
    split; [exact (H_fixed (params_of ex_unit) 23 4 12 ltac:(cbn; tauto) ltac:(lia))|].
    split; [split; [cbn; lia|split; [cbn; lia|reflexivity]]|cbn; lia]. }
  split; [constructor|]. split.
  { unfold ex_bytes, ex_entries.
    apply (L_range true 8 KRng no_payload (EOffset 1 5) tt [4; 1; 5] []); [reflexivity| |reflexivity|].
    { apply B_code; [reflexivity|]. apply (O_off true 8 KRng 1 5 [1] [5]); apply uleb1; lia. }
    apply (L_base true 8 KRng no_payload (EBase 4096) tt (5 :: enc true 8 4096)); [reflexivity| |].
    { apply B_code; [reflexivity|]. constructor. lia. }
    apply (L_range true 8 KRng no_payload (EOffset 2 3) tt [4; 2; 3] []); [reflexivity| |reflexivity|].
    { apply B_code; [reflexivity|]. apply (O_off true 8 KRng 2 3 [2] [3]); apply uleb1; lia. }
    apply (L_range true 8 KRng no_payload (EStartLen 64 9) tt (7 :: enc true 8 64 ++ [9]) []); [reflexivity| |reflexivity|].
    { apply B_code; [reflexivity|]. apply O_sl; [lia|apply uleb1; lia]. }
    apply (L_range true 8 KRng no_payload (EStartxEndx 0 1) tt [2; 0; 1] []); [reflexivity| |reflexivity|].
    { apply B_code; [reflexivity|]. apply (O_xx true 8 KRng 0 1 [0] [1]); apply uleb1; lia. }
    constructor. }
  split; [split; [lia|split; [vm_compute; discriminate|reflexivity]]|].
  split; [apply D_range; [reflexivity|reflexivity|]; apply (D_base _ _ 4096); [reflexivity|reflexivity|]; repeat (apply D_range; [reflexivity|reflexivity|]); constructor|].
  split; [right; exists 0, ex_tab; split; [reflexivity|]; split; [reflexivity|]; split; [exact (at_all ex_tab)|]; split; [repeat (constructor; [cbn; lia|]); constructor|reflexivity]|].
  split; [reflexivity|]. vm_compute. reflexivity.
Qed.
Example C57_contiguous_nonvacuous : 
  ranges_all ex_unit None None 2 (Pcs (Some (Attr 17 FORM_addr 21 [])) (Some (Attr 18 11 12 [])) None) None None 0 None 0 0 = Ok [(4096, 4112)] /\
  has_value ex_unit (Attr 17 FORM_addr 21 []) (Unsigned 4096) (enc true 8 4096) /\ has_value ex_unit (Attr 18 11 12 []) (Unsigned 16) [16].
Proof.
  split; [vm_compute; reflexivity|]. split.
  - split; [split; cbn; lia|]. split; [cbn; lia|]. split; [reflexivity|]. split; [exact (H_fixed (params_of ex_unit) 1 8 4096 ltac:(cbn; tauto) ltac:(lia))|].
    split; [split; [vm_compute; discriminate|split; [vm_compute; discriminate|reflexivity]]|vm_compute; discriminate].
  - split; [split; cbn; lia|]. split; [cbn; lia|]. split; [reflexivity|]. split; [exact (H_fixed (params_of ex_unit) 11 1 16 ltac:(cbn; tauto) ltac:(lia))|].
    split; [split; [vm_compute; discriminate|split; [vm_compute; discriminate|reflexivity]]|vm_compute; discriminate].
Qed.
(* a location list with an indexed offset: the table follows the header *)
Definition ex_locs : list (lent * bytes) := [(EStartEnd 16 32, [80]); (EBase 4096, []); (EOffset 0 8, [81; 82]); (EDefault, [83])].
Definition ex_loc_list : bytes := (7 :: enc true 8 16 ++ enc true 8 32) ++ ([1] ++ [80]) ++ (6 :: enc true 8 4096) ++ [4; 0; 8] ++ ([2] ++ [81; 82]) ++ [5] ++ ([1] ++ [83]) ++ [0].
Definition ex_loc_sec : bytes := list_header true 4 50 8 1 ++ enc true 4 4 ++ ex_loc_list.
Definition ex_loc_attr : attr := Attr 2 FORM_loclistx 0 [].
Example C58_nonvacuous : exists off r,
  refers_to ex_unit ex_loc_attr FORM_loclistx 0 ex_loc_sec off /\ list_bytes true 8 KLoc (expr_payload true KLoc) ex_locs ex_loc_list /\
  at_ ex_loc_sec off ex_loc_list /\ denotes [] 0 ex_locs r /\ List.length r = 3%nat /\
  (exists e, location_addr ex_unit None None false ex_loc_attr None None 0 (Some ex_loc_sec) 4100 1 = Ok [e] /\ zsub ex_loc_sec (le_data e) (le_len e) = [81; 82]).
Proof.
  exists (12 + 4), [(16, 32, [80]); (4096, 4104, [81; 82]); (0, two64 - 1, [83])].
  split.
  { apply (R_indexed _ _ _ _ _ 0 [0] 12 [4] 4); try reflexivity.
    - split; [split; cbn; lia|]. split; [cbn; lia|]. split; [reflexivity|]. split; [apply H_uleb; [cbn; tauto|apply uleb1; lia]|].
      split; [split; [cbn; lia|split; [cbn; lia|reflexivity]]|cbn; lia].
    - cbn. tauto.
    - apply (T_head ex_unit 0 ex_loc_sec 4 50 8 1); try solve [reflexivity | left; lia | right; reflexivity | lia | vm_compute; discriminate].
      split; [lia|]. split; [vm_compute; discriminate|reflexivity].
    - split; [lia|]. split; [vm_compute; discriminate|reflexivity].
    - constructor; [cbn; lia|constructor]. }
  split.
  { unfold ex_loc_list, ex_locs.
    apply L_range; [reflexivity| |exists [1]; split; [apply uleb1; cbn; lia|reflexivity]|].
    { apply B_code; [reflexivity|]. apply O_se; lia. }
    apply L_base; [reflexivity| |]. { apply B_code; [reflexivity|]. constructor. lia. }
    apply L_range; [reflexivity| |exists [2]; split; [apply uleb1; cbn; lia|reflexivity]|].
    { apply B_code; [reflexivity|]. apply (O_off true 8 KLoc 0 8 [0] [8]); apply uleb1; lia. }
    apply L_range; [reflexivity| |exists [1]; split; [apply uleb1; cbn; lia|reflexivity]|constructor].
    apply B_code; [reflexivity|]. constructor. }
  split; [split; [lia|split; [vm_compute; discriminate|reflexivity]]|].
  split; [apply D_range; [reflexivity|reflexivity|]; apply (D_base _ _ 4096); [reflexivity|reflexivity|]; repeat (apply D_range; [reflexivity|reflexivity|]); constructor|].
  split; [reflexivity|]. eexists. split; [vm_compute; reflexivity|reflexivity].
Qed.
