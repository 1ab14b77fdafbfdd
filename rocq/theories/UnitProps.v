(* C32 (unit iteration) and C46 (looking up a unit by offset).

   Specification: the unit headers of DWARF 2 to 5, as the list of the fields following
   the version; the chain of units of a section. *)
From Verif Require Import Base DwModel UnitModel.

(* ------------------------------------------------------------------ *)
(* Specification *)
Section spec.
Variables (fle : bool) (d : bytes) (off : Z).
Definition U_fmt64 : bool := fval fle (zsub d off 4) =? 4294967295.
Definition U_lenw : Z := if U_fmt64 then 12 else 4.                (* size of the length field *)
Definition U_osize : Z := if U_fmt64 then 8 else 4.
Definition U_length : Z := if U_fmt64 then fval fle (zsub d (off + 4) 8) else fval fle (zsub d off 4).
Definition U_version : Z := fval fle (zsub d (off + U_lenw) 2).
Inductive ufield := FType | FAddrSize | FAbbrev | FId | FTypeOffset.
Definition uwidth (f : ufield) : Z := match f with FType => 1 | FAddrSize => 1 | FAbbrev => U_osize | FId => 8 | FTypeOffset => U_osize end.
Definition ufield_eqb (a b : ufield) : bool :=
  match a, b with FType, FType | FAddrSize, FAddrSize | FAbbrev, FAbbrev | FId, FId | FTypeOffset, FTypeOffset => true | _, _ => false end.
(* the unit type of DWARF 5 *)
Definition U_type5 : Z := fval fle (zsub d (off + U_lenw + 2) 1).
(* fields after the version; types: .debug_types *)
Definition U_layout (types : bool) : list ufield :=
  if U_version <? 5 then [FAbbrev; FAddrSize] ++ (if types then [FId; FTypeOffset] else [])
  else [FType; FAddrSize; FAbbrev] ++
       (if (U_type5 =? 4) || (U_type5 =? 5) then [FId] else if (U_type5 =? 2) || (U_type5 =? 6) then [FId; FTypeOffset] else []).
Fixpoint fsum (l : list ufield) : Z := match l with [] => 0 | f :: r => uwidth f + fsum r end.
(* value of the field f, 0 if there is none *)
Fixpoint fget (l : list ufield) (p : Z) (f : ufield) : Z :=
  match l with
  | [] => 0
  | g :: r => if ufield_eqb g f then fval fle (zsub d p (uwidth g)) else fget r (p + uwidth g) f
  end.
Definition U_hsize (types : bool) : Z := U_lenw + 2 + fsum (U_layout types).
Definition U_field (types : bool) (f : ufield) : Z := fget (U_layout types) (off + U_lenw + 2) f.
End spec.

Definition is_off (x : Z) : Prop := 0 <= x < two64.

Ltac brk H := match type of H with
  | (if ?b then _ else _) = _ => destruct b eqn:?
  | obind ?e _ = _ => destruct e eqn:?; cbn [obind] in H
  end; try discriminate H.

Lemma rd_ok : forall fle d p n v, rd fle d p n = Ok v -> 0 <= p /\ p + n <= zlen d /\ v = fval fle (zsub d p n).
Proof.
  intros fle d p n v H. unfold rd in H. destruct ((0 <=? p) && (p + n <=? zlen d)) eqn:E; [|discriminate].
  injection H as <-. lia.
Qed.
Lemma read_offset_ok : forall fle d p w s sz v, w = 4 \/ w = 8 -> read_offset fle d p w s sz = Ok v -> 0 <= p /\ p + w <= zlen d /\ v = fval fle (zsub d p w).
Proof.
  intros fle d p w s sz v W H. unfold read_offset, read_address in H. destruct (in_section d p w); [|discriminate].
  destruct (rd fle d p (if w =? 4 then 4 else 8)) eqn:R; cbn [obind] in H; try discriminate.
  destruct (offset_in_section s a sz); cbn [obind] in H; try discriminate. injection H as <-.
  replace (if w =? 4 then 4 else 8) with w in R by (destruct W as [-> | ->]; reflexivity). apply rd_ok in R. exact R.
Qed.
Lemma first_die_spec : forall off osize v t, 0 <= off < two63 -> osize = 4 \/ osize = 8 ->
  first_die_from_cu_start off osize v t =
  off + (if v <? 5 then (if negb (t =? 2) then 3 * osize - 1 else 4 * osize + 7)
         else (if (t =? 4) || (t =? 5) then 3 * osize + 8 else if (t =? 2) || (t =? 6) then 4 * osize + 8 else 3 * osize)).
Proof.
  intros off osize v t O W. unfold first_die_from_cu_start, DW_UT_type, DW_UT_skeleton, DW_UT_split_compile, DW_UT_split_type, u64.
  destruct (v <? 5).
  - destruct (t =? 2); cbn [negb]; rewrite Z.mod_small by lia; lia.
  - destruct (t =? 4) eqn:T4; [|destruct (t =? 5) eqn:T5; [|destruct (t =? 2) eqn:T2; [|destruct (t =? 6) eqn:T6]]]; cbn [orb].
    + replace (t =? 2) with false by lia. replace (t =? 6) with false by lia. cbn [orb]. rewrite Z.mod_small by lia. lia.
    + replace (t =? 2) with false by lia. replace (t =? 6) with false by lia. cbn [orb]. rewrite Z.mod_small by lia. lia.
    + rewrite Z.mod_small by lia. lia.
    + rewrite Z.mod_small by lia. lia.
    + rewrite Z.mod_small by lia. lia.
Qed.

(* What a successful call has read *)
Lemma next_unit_ok : forall fle types d abb off u, bytes_ok d -> zlen d < two63 -> is_off off ->
  next_unit fle types (Some d) abb off = Ok (NuUnit u) ->
  0 <= off /\ off + 4 < zlen d /\ off + u_hsize u <= zlen d /\
  u_version u = U_version fle d off /\ u_osize u = U_osize fle d off /\
  u_next u = (let n := u64 (off + U_lenw fle d off + U_length fle d off) in if n <=? off then two64 - 1 else n) /\
  (2 <= u_version u <= 5 -> (5 <= u_version u -> types = false /\ 1 <= U_type5 fle d off <= 6) ->
     u_hsize u = U_hsize fle d off types /\ off + u_hsize u < zlen d /\
     u_abbrev u = U_field fle d off types FAbbrev /\ u_asize u = U_field fle d off types FAddrSize /\
     u_id8 u = U_field fle d off types FId /\ u_subdie u = U_field fle d off types FTypeOffset /\
     (5 <= u_version u -> u_type u = U_type5 fle d off)).
Proof.
  intros fle types d abb off u B ZL IO H. unfold next_unit in H.
  destruct ((off =? two64 - 1) || (zlen d <=? u64 (off + 4))) eqn:E0; [discriminate|].
  destruct (rd fle d off 4) as [len0| | |] eqn:R0; cbn [obind] in H; try discriminate.
  pose proof (rd_ok _ _ _ _ _ R0) as (P0 & P1 & V0).
  assert (OB : off + 4 < zlen d). { unfold u64 in E0. rewrite Z.mod_small in E0 by lia. lia. }
  destruct (negb (len0 =? LENGTH_64_BIT) && (LENGTH_MIN_ESCAPE <=? len0)); [discriminate|].
  assert (F64 : (len0 =? LENGTH_64_BIT) = U_fmt64 fle d off) by (unfold U_fmt64; rewrite V0; reflexivity).
  rewrite F64 in H.
  unfold U_hsize, U_field, U_layout.
  set (lw := U_lenw fle d off) in *. set (osz := U_osize fle d off).
  assert (OS : (if U_fmt64 fle d off then 8 else 4) = osz) by reflexivity. rewrite OS in H.
  assert (OW : osz = 4 \/ osz = 8) by (unfold osz, U_osize; destruct (U_fmt64 fle d off); lia).
  assert (LW : lw = 2 * osz - 4) by (unfold lw, osz, U_lenw, U_osize; destruct (U_fmt64 fle d off); lia).
  match type of H with obind ?e _ = _ => destruct e as [len| | |] eqn:RL; cbn [obind] in H; try discriminate end.
  assert (LV : len = U_length fle d off).
  { unfold U_length. destruct (U_fmt64 fle d off); [apply rd_ok in RL; apply RL|injection RL as <-; exact V0]. }
  replace (if U_fmt64 fle d off then off + 4 + 8 else off + 4) with (off + lw) in H by (unfold lw, U_lenw; destruct (U_fmt64 fle d off); lia).
  destruct (rd fle d (off + lw) 2) as [version| | |] eqn:RV; cbn [obind] in H; try discriminate.
  pose proof (rd_ok _ _ _ _ _ RV) as (P2 & P3 & V1).
  assert (VV : version = U_version fle d off) by (rewrite V1; reflexivity).
  cbv zeta in H. replace (off + 2 * osz - 4 + len) with (off + lw + U_length fle d off) in H by (rewrite LV, LW; lia).
  match type of H with obind ?e _ = _ => destruct e as [ut| | |] eqn:RT; cbn [obind] in H; try discriminate end.
  rewrite <- VV.
  assert (UT : 5 <= version -> ut = U_type5 fle d off /\ off + lw + 3 <= zlen d).
  { intros V5. replace (5 <=? version) with true in RT by lia. apply rd_ok in RT as (Q1 & Q2 & Q3). split; [rewrite Q3; reflexivity|lia]. }
  match type of H with (if ?b then _ else _) = _ => destruct b eqn:EK end.
  { injection H as <-. cbn [u_hsize u_version u_osize u_next u_asize u_type u_abbrev u_id8 u_subdie].
    split; [lia|]. split; [lia|]. split; [destruct (Z.leb_spec 5 version); [specialize (UT ltac:(lia)); lia|lia]|].
    split; [reflexivity|]. split; [reflexivity|]. split; [reflexivity|].
    intros V25 V5. exfalso. destruct (version =? 5) eqn:E5; [|lia].
    destruct V5 as [_ V5]; [lia|]. destruct UT as [UT _]; [lia|]. rewrite UT in EK. unfold known_type, DW_UT_compile, DW_UT_partial, DW_UT_skeleton, DW_UT_split_compile, DW_UT_type, DW_UT_split_type in EK. lia. }
  assert (V25 : 2 <= version <= 5) by lia.
  match type of H with (if ?b then _ else _) = _ => destruct b eqn:ED; [discriminate|] end.
  rewrite first_die_spec in ED by (lia || exact OW). change (U_type5 fle d off) with (U_type5 fle d off).
  assert (WA : uwidth fle d off FAbbrev = osz) by reflexivity. assert (WS : uwidth fle d off FTypeOffset = osz) by reflexivity.
  destruct (Z.ltb_spec version 5) as [V4|V5].
  - (* DWARF 2 to 4 *)
    replace (5 <=? version) with false in * by lia. cbn [obind andb] in H.
    destruct (read_offset fle d (off + lw + 2) osz abb 0) as [abbrev| | |] eqn:RA; cbn [obind] in H; try discriminate.
    apply (read_offset_ok _ _ _ _ _ _ _ OW) in RA as (A1 & A2 & A3).
    destruct (rd fle d (off + lw + 2 + osz) 1) as [a4| | |] eqn:R4; cbn [obind] in H; try discriminate.
    apply rd_ok in R4 as (B1 & B2 & B3).
    destruct types; cbn [orb] in H; cbn [orb andb negb Z.eqb Pos.eqb DW_UT_type DW_UT_compile] in ED.
    + destruct (rd fle d (off + lw + 2 + osz + 1) 8) as [id8| | |] eqn:RI; cbn [obind] in H; try discriminate.
      apply rd_ok in RI as (C1 & C2 & C3).
      destruct (read_offset fle d (off + lw + 2 + osz + 1 + 8) osz (Some d) 0) as [sub| | |] eqn:RS; cbn [obind] in H; try discriminate.
      apply (read_offset_ok _ _ _ _ _ _ _ OW) in RS as (D1 & D2 & D3).
      destruct (sub <? off + lw + 2 + osz + 1 + 8 + osz - off); [discriminate|]. injection H as <-.
      cbn [u_hsize u_version u_osize u_next u_asize u_type u_abbrev u_id8 u_subdie].
      split; [lia|]. split; [lia|]. split; [lia|]. split; [reflexivity|]. split; [reflexivity|]. split; [reflexivity|]. intros _ _.
      cbn [app fsum fget ufield_eqb]. rewrite WA, WS. cbn [uwidth]. split; [lia|]. split; [lia|]. split; [exact A3|]. split; [exact B3|]. split; [exact C3|]. split; [exact D3|]. lia.
    + injection H as <-.
      cbn [u_hsize u_version u_osize u_next u_asize u_type u_abbrev u_id8 u_subdie].
      split; [lia|]. split; [lia|]. split; [lia|]. split; [reflexivity|]. split; [reflexivity|]. split; [reflexivity|]. intros _ _.
      cbn [app fsum fget ufield_eqb]. rewrite WA. cbn [uwidth]. split; [lia|]. split; [lia|]. split; [exact A3|]. split; [exact B3|]. split; [reflexivity|]. split; [reflexivity|]. lia.
  - (* DWARF 5 *)
    replace (5 <=? version) with true in * by lia. cbn [obind andb] in H. destruct UT as [UT UL]; [lia|]. rewrite UT in *. set (t := U_type5 fle d off) in *.
    destruct (rd fle d (off + lw + 2 + 1) 1) as [a5| | |] eqn:R5; cbn [obind] in H; try discriminate.
    apply rd_ok in R5 as (B1 & B2 & B3).
    destruct (read_offset fle d (off + lw + 2 + 1 + 1) osz abb 0) as [abbrev| | |] eqn:RA; cbn [obind] in H; try discriminate.
    apply (read_offset_ok _ _ _ _ _ _ _ OW) in RA as (A1 & A2 & A3).
    unfold DW_UT_skeleton, DW_UT_split_compile, DW_UT_type, DW_UT_split_type in H.
    destruct types.
    { cbn [orb] in H. destruct (rd fle d (off + lw + 2 + 1 + 1 + osz) 8) as [id8| | |] eqn:RI; cbn [obind] in H; try discriminate. apply rd_ok in RI as (C1 & C2 & C3).
      destruct (read_offset fle d (off + lw + 2 + 1 + 1 + osz + 8) osz (Some d) 0) as [sub| | |] eqn:RS; cbn [obind] in H; try discriminate.
      apply (read_offset_ok _ _ _ _ _ _ _ OW) in RS as (D1 & D2 & D3).
      match type of H with (if ?b then _ else _) = _ => destruct b eqn:ES; [discriminate|] end. injection H as <-.
      cbn [u_hsize u_version u_osize u_next u_asize u_type u_abbrev u_id8 u_subdie].
      split; [lia|]. split; [lia|]. split; [lia|]. split; [reflexivity|]. split; [reflexivity|]. split; [reflexivity|]. intros _ V. destruct V as [V _]; [lia|discriminate]. }
    cbn [orb] in H.
    destruct ((t =? 4) || (t =? 5)) eqn:T45.
    { cbn [orb] in H.
      replace ((t =? 2) || (t =? 6)) with false in * by lia.
      destruct (rd fle d (off + lw + 2 + 1 + 1 + osz) 8) as [id8| | |] eqn:RI; cbn [obind] in H; try discriminate. apply rd_ok in RI as (C1 & C2 & C3).
      injection H as <-. cbn [u_hsize u_version u_osize u_next u_asize u_type u_abbrev u_id8 u_subdie].
      split; [lia|]. split; [lia|]. split; [lia|]. split; [reflexivity|]. split; [reflexivity|]. split; [reflexivity|]. intros _ _.
      cbn [app fsum fget ufield_eqb]. rewrite WA. cbn [uwidth]. split; [lia|]. split; [lia|]. split; [exact A3|]. split; [exact B3|]. split; [exact C3|]. split; [reflexivity|]. intros _; reflexivity. }
    destruct ((t =? 2) || (t =? 6)) eqn:T26.
    { cbn [orb] in H. rewrite ?T26 in H.
      destruct (rd fle d (off + lw + 2 + 1 + 1 + osz) 8) as [id8| | |] eqn:RI; cbn [obind] in H; try discriminate. apply rd_ok in RI as (C1 & C2 & C3).
      destruct (read_offset fle d (off + lw + 2 + 1 + 1 + osz + 8) osz (Some d) 0) as [sub| | |] eqn:RS; cbn [obind] in H; try discriminate.
      apply (read_offset_ok _ _ _ _ _ _ _ OW) in RS as (D1 & D2 & D3).
      match type of H with (if ?b then _ else _) = _ => destruct b eqn:ES; [discriminate|] end. injection H as <-.
      cbn [u_hsize u_version u_osize u_next u_asize u_type u_abbrev u_id8 u_subdie].
      split; [lia|]. split; [lia|]. split; [lia|]. split; [reflexivity|]. split; [reflexivity|]. split; [reflexivity|]. intros _ _.
      cbn [app fsum fget ufield_eqb]. rewrite WA, WS. cbn [uwidth]. split; [lia|]. split; [lia|]. split; [exact A3|]. split; [exact B3|]. split; [exact C3|]. split; [exact D3|]. intros _; reflexivity. }
    cbn [orb] in H. rewrite ?T26 in H.
    injection H as <-. cbn [u_hsize u_version u_osize u_next u_asize u_type u_abbrev u_id8 u_subdie].
    split; [lia|]. split; [lia|]. split; [lia|]. split; [reflexivity|]. split; [reflexivity|]. split; [reflexivity|]. intros _ _.
    cbn [app fsum fget ufield_eqb]. rewrite WA. cbn [uwidth]. split; [lia|]. split; [lia|]. split; [exact A3|]. split; [exact B3|]. split; [reflexivity|]. split; [reflexivity|]. intros _; reflexivity.
Qed.

(* Enough bytes for the part of the header that is read without a check *)
Definition room (d : bytes) (off : Z) : Prop :=
  off + 15 <= zlen d \/ (zlen d <= off + 4 /\ off + 4 < two64) \/ off = two64 - 1.

Lemma rd_not_ub : forall fle d p n, 0 <= p -> p + n <= zlen d -> exists v, rd fle d p n = Ok v.
Proof. intros. eexists. apply rd_in; assumption. Qed.
Lemma read_offset_safe : forall fle d p w s sz, 0 <= p -> w = 4 \/ w = 8 -> exists r, read_offset fle d p w s sz = r /\ match r with Ok _ | Err _ => True | _ => False end.
Proof.
  intros fle d p w s sz P W. eexists. split; [reflexivity|]. unfold read_offset, read_address, in_section.
  destruct ((p <? 0) || (zlen d <? w) || (zlen d - w <? p)) eqn:E; cbn [negb obind]; [exact I|].
  replace (if w =? 4 then 4 else 8) with w by (destruct W as [-> | ->]; reflexivity).
  rewrite rd_in by lia. cbn [obind]. unfold offset_in_section. destruct s; [|exact I].
  match goal with |- context [if ?b then _ else _] => destruct b end; exact I.
Qed.
Definition settled {A} (r : outcome A) : Prop := match r with Ok _ | Err _ => True | _ => False end.

Lemma next_unit_settled : forall fle types s abb off, is_off off ->
  (forall d, s = Some d -> zlen d < two63 /\ room d off /\ (types = true -> off + 4 < zlen d -> U_version fle d off <= 4)) ->
  settled (next_unit fle types s abb off).
Proof.
  intros fle types s abb off IO HS. unfold is_off in IO. unfold next_unit. destruct s as [d|]; [|exact I].
  destruct (HS d eq_refl) as (ZL & RM & TV). clear HS.
  destruct ((off =? two64 - 1) || (zlen d <=? u64 (off + 4))) eqn:E0; [exact I|].
  assert (R15 : off + 15 <= zlen d).
  { destruct RM as [X|[X|X]]; [exact X| |lia]. unfold u64 in E0. rewrite Z.mod_small in E0 by lia. lia. }
  specialize (fun T => TV T ltac:(lia)).
  rewrite rd_in by lia. cbn [obind].
  change (fval fle (zsub d off 4) =? LENGTH_64_BIT) with (U_fmt64 fle d off).
  match goal with |- context [if ?b then Err _ else _] => destruct b; [exact I|] end.
  set (osz := if U_fmt64 fle d off then 8 else 4). cbv zeta.
  assert (OW : osz = 4 \/ osz = 8) by (unfold osz; destruct (U_fmt64 fle d off); lia).
  assert (exists len, (if U_fmt64 fle d off then rd fle d (off + 4) 8 else Ok (fval fle (zsub d off 4))) = Ok len) as (len & ->).
  { destruct (U_fmt64 fle d off); [apply rd_not_ub; lia|eexists; reflexivity]. }
  cbn [obind].
  replace (if U_fmt64 fle d off then off + 4 + 8 else off + 4) with (off + U_lenw fle d off) by (unfold U_lenw; destruct (U_fmt64 fle d off); lia).
  assert (LW : U_lenw fle d off = 2 * osz - 4) by (unfold U_lenw, osz; destruct (U_fmt64 fle d off); reflexivity).
  set (lw := U_lenw fle d off) in *.
  rewrite rd_in by lia. cbn [obind]. change (fval fle (zsub d (off + lw) 2)) with (U_version fle d off). set (version := U_version fle d off) in *.
  assert (exists ut, (if 5 <=? version then rd fle d (off + lw + 2) 1 else Ok 0) = Ok ut) as (ut & ->).
  { destruct (5 <=? version); [apply rd_not_ub; lia|eexists; reflexivity]. }
  cbn [obind].
  match goal with |- settled (if ?b then _ else _) => destruct b eqn:EK; [exact I|] end.
  match goal with |- settled (if ?b then _ else _) => destruct b eqn:ED; [exact I|] end.
  rewrite first_die_spec in ED by (lia || exact OW).
  set (p5 := if 5 <=? version then off + lw + 2 + 1 else off + lw + 2).
  assert (P5 : 0 <= p5 /\ p5 + osz <= zlen d /\ (5 <= version -> p5 + 1 + osz <= zlen d) /\ (version < 5 -> p5 + osz + 1 <= zlen d) ).
  { unfold p5. destruct (Z.leb_spec 5 version); destruct (Z.ltb_spec version 5); try lia.
    - destruct ((ut =? 4) || (ut =? 5)); [lia|]. destruct ((ut =? 2) || (ut =? 6)); lia.
    - match type of ED with context [if ?b then _ else _] => destruct b end; lia. }
  assert (exists a5, (if 5 <=? version then rd fle d p5 1 else Ok 0) = Ok a5) as (a5 & ->).
  { destruct (Z.leb_spec 5 version); [apply rd_not_ub; lia|eexists; reflexivity]. }
  cbn [obind].
  match goal with |- context [read_offset fle d ?p osz abb 0] => destruct (read_offset_safe fle d p osz abb 0) as (r1 & R1 & S1); [destruct (5 <=? version); lia|exact OW|]; rewrite R1; destruct r1; cbn [obind]; try exact I; try contradiction; clear R1 S1 end.
  assert (exists a4, (if version <? 5 then rd fle d ((if 5 <=? version then p5 + 1 else p5) + osz) 1 else Ok 0) = Ok a4) as (a4 & ->).
  { destruct (Z.ltb_spec version 5); [|eexists; reflexivity]. replace (5 <=? version) with false by lia. apply rd_not_ub; lia. }
  cbn [obind].
  match goal with |- settled (if ?b then _ else _) => destruct b eqn:EI; [|exact I] end.
  match goal with |- context [rd fle d ?p 8] => set (p8 := p) end.
  assert (P8 : 0 <= p8 /\ p8 + 8 <= zlen d).
  { unfold p8, p5. unfold DW_UT_type, DW_UT_compile, DW_UT_skeleton, DW_UT_split_compile, DW_UT_split_type in *.
    destruct (Z.ltb_spec version 5).
    - replace (5 <=? version) with false in * by lia. destruct types; cbn [orb andb negb Z.eqb Pos.eqb] in *; [lia|discriminate].
    - replace (5 <=? version) with true in * by lia. destruct types; [specialize (TV eq_refl); lia|]. cbn [orb andb] in EI.
      destruct ((ut =? 4) || (ut =? 5)) eqn:T45; [lia|]. destruct ((ut =? 2) || (ut =? 6)) eqn:T26; lia. }
  rewrite rd_in by lia. cbn [obind].
  match goal with |- settled (if ?b then _ else _) => destruct b eqn:EI2; [|exact I] end.
  match goal with |- context [read_offset fle d ?p osz (Some d) 0] => destruct (read_offset_safe fle d p osz (Some d) 0) as (r2 & R2 & S2); [lia|exact OW|]; rewrite R2; destruct r2; cbn [obind]; try exact I; try contradiction; clear R2 S2 end.
  match goal with |- settled (if ?b then _ else _) => destruct b; exact I end.
Qed.

(* ------------------------------------------------------------------ *)
(* C32: no read outside the section.  Missing: the last bytes of the section (less than
   15) are read unchecked, offsets close to 2^64 wrap, and a version 5 unit in
   .debug_types; see the three refutations. *)
Theorem C32_unit_safe_partial : forall fle types d abb off, is_off off -> zlen d < two63 -> room d off ->
  (types = true -> off + 4 < zlen d -> U_version fle d off <= 4) ->
  exists r, next_unit fle types (Some d) abb off = r /\ match r with Ok _ | Err _ => True | UB | Fuel => False end.
Proof.
  intros fle types d abb off IO ZL R T. eexists. split; [reflexivity|]. apply next_unit_settled; [exact IO|].
  intros d' E. injection E as <-. split; [exact ZL|]. split; assumption.
Qed.
Print Assumptions C32_unit_safe_partial.

(* The header: what is reported is what is in the section, all of it inside. *)
Theorem C32_unit_header : forall fle types d abb off u, bytes_ok d -> zlen d < two63 -> is_off off ->
  next_unit fle types (Some d) abb off = Ok (NuUnit u) ->
  off + u_hsize u <= zlen d /\ u_version u = U_version fle d off /\ u_osize u = U_osize fle d off /\
  (2 <= u_version u <= 5 -> (5 <= u_version u -> types = false /\ 1 <= U_type5 fle d off <= 6) ->
     u_hsize u = U_hsize fle d off types /\
     u_abbrev u = U_field fle d off types FAbbrev /\ u_asize u = U_field fle d off types FAddrSize /\
     u_id8 u = U_field fle d off types FId /\ u_subdie u = U_field fle d off types FTypeOffset).
Proof.
  intros fle types d abb off u B ZL IO H. destruct (next_unit_ok _ _ _ _ _ _ B ZL IO H) as (_ & _ & H1 & H2 & H3 & _ & H4).
  split; [exact H1|]. split; [exact H2|]. split; [exact H3|]. intros V V5. destruct (H4 V V5) as (K1 & _ & K2 & K3 & K4 & K5 & _).
  split; [exact K1|]. split; [exact K2|]. split; [exact K3|]. split; [exact K4|exact K5].
Qed.
Print Assumptions C32_unit_header.

(* Progress: the next offset is that following the unit, or -1. *)
Theorem C32_progress : forall fle types d abb off u, bytes_ok d -> zlen d < two63 -> is_off off ->
  next_unit fle types (Some d) abb off = Ok (NuUnit u) ->
  let n := off + U_lenw fle d off + U_length fle d off in
  off + 4 < zlen d /\
  (u_next u = two64 - 1 \/ off < u_next u) /\ (n < two64 -> u_next u = n) /\ is_off (u_next u).
Proof.
  intros fle types d abb off u B ZL IO H n. destruct (next_unit_ok _ _ _ _ _ _ B ZL IO H) as (P0 & P1 & _ & _ & _ & NX & _).
  rewrite NX. cbv zeta. fold n. 
  assert (N0 : off < n).
  { unfold n. assert (L0 : 4 <= U_lenw fle d off) by (unfold U_lenw; destruct (U_fmt64 fle d off); lia).
    assert (0 <= U_length fle d off). { unfold U_length. destruct (U_fmt64 fle d off); apply fval_bound; apply bytes_ok_part, B. }
    lia. }
  clearbody n. unfold u64, is_off in *. pose proof (Z.mod_pos_bound n two64 ltac:(lia)).
  split; [lia|]. destruct (n mod two64 <=? off) eqn:E; (split; [lia|]; split; [|lia]).
  - intros L. rewrite Z.mod_small in E by lia. lia.
  - intros L. rewrite Z.mod_small by lia. reflexivity.
Qed.
Print Assumptions C32_progress.

Lemma bind_no_fuel : forall A B (e : outcome A) (f : A -> outcome B), e <> Fuel -> (forall a, f a <> Fuel) -> obind e f <> Fuel.
Proof. intros A B e f E F. destruct e; cbn [obind]; [apply F|discriminate|discriminate|congruence]. Qed.
Lemma rd_no_fuel : forall fle d p n, rd fle d p n <> Fuel.
Proof. intros. unfold rd. destruct ((0 <=? p) && (p + n <=? zlen d)); discriminate. Qed.
Lemma read_offset_no_fuel : forall fle d p w s sz, read_offset fle d p w s sz <> Fuel.
Proof.
  intros. unfold read_offset, read_address. apply bind_no_fuel; [destruct (in_section d p w); [apply rd_no_fuel|discriminate]|].
  intros a. apply bind_no_fuel; [|discriminate]. unfold offset_in_section. destruct s; [|discriminate].
  match goal with |- context [if ?q then Err _ else _] => destruct q end; discriminate.
Qed.
Lemma next_unit_no_fuel : forall fle types s abb off, next_unit fle types s abb off <> Fuel.
Proof.
  intros. unfold next_unit. destruct s; [|discriminate].
  repeat match goal with
  | |- (if ?b then _ else _) <> Fuel => destruct b
  | |- obind _ _ <> Fuel => apply bind_no_fuel; [|intros ?]
  | |- rd _ _ _ _ <> Fuel => apply rd_no_fuel
  | |- read_offset _ _ _ _ _ _ <> Fuel => apply read_offset_no_fuel
  | |- _ <> Fuel => discriminate
  end.
Qed.

(* Iteration ends, whatever is in the section. *)
Lemma walk_ends : forall fle types d abb k off, bytes_ok d -> zlen d < two63 -> is_off off ->
  (zlen d - off < Z.of_nat k)%Z -> (0 < k)%nat -> walk k fle types (Some d) abb off <> Fuel.
Proof.
  intros fle types d abb. induction k as [|k IH]; intros off B ZL IO K K0; [lia|]. cbn [walk].
  destruct (next_unit fle types (Some d) abb off) as [[|u]| | |] eqn:E; try discriminate.
  - destruct (C32_progress _ _ _ _ _ _ B ZL IO E) as (P1 & P2 & _ & P4).
    destruct k as [|k]; [exfalso; pose proof (zlen_nonneg _ d); lia|].
    specialize (IH (u_next u) B ZL P4). 
    assert (X : walk (S k) fle types (Some d) abb (u_next u) <> Fuel) by (apply IH; lia).
    destruct (walk (S k) fle types (Some d) abb (u_next u)); cbn [obind]; congruence.
  - exfalso. exact (next_unit_no_fuel _ _ _ _ _ E).
Qed.
Theorem C32_iteration_terminates : forall fle types d abb, bytes_ok d -> zlen d < two63 ->
  walk (S (S (length d))) fle types (Some d) abb 0 <> Fuel.
Proof.
  intros fle types d abb B ZL. apply walk_ends; try assumption; [unfold is_off; lia|unfold zlen; lia|lia].
Qed.
Print Assumptions C32_iteration_terminates.

(* examples *)
Definition le4 := le_bytes 4. Definition le8 := le_bytes 8. Definition le2 := le_bytes 2.
(* two units, DWARF 4 and DWARF 5 (64-bit, skeleton) *)
Definition info_ex : bytes :=
  le4 12 ++ le2 4 ++ le4 0 ++ [8] ++ repeat 0 5 ++
  [255; 255; 255; 255] ++ le8 25 ++ le2 5 ++ [4; 8] ++ le8 1 ++ le8 77 ++ repeat 0 5.
Example C32_nonvacuous : bytes_ok info_ex /\ room info_ex 0 /\ room info_ex 16 /\
  walk 100 true false (Some info_ex) (Some [0; 0]) 0 = Ok [0; 16] /\
  (exists u, next_unit true false (Some info_ex) (Some [0; 0]) 16 = Ok (NuUnit u) /\
     u_abbrev u = 1 /\ u_id8 u = 77 /\ u_hsize u = 32 /\ u_type u = 4).
Proof.
  split; [repeat constructor; unfold is_u8; lia|]. split; [left; vm_compute; discriminate|]. split; [left; vm_compute; discriminate|].
  split; [vm_compute; reflexivity|]. eexists. split; [vm_compute; reflexivity|]. vm_compute. repeat split; reflexivity.
Qed.

(* A section which ends within the unit header: only the first four bytes are checked, the rest is read outside. *)
Theorem C32_short_section_refuted : exists d, bytes_ok d /\ next_unit true false (Some d) (Some []) 0 = UB.
Proof. exists (le4 100 ++ [4]). split; [repeat constructor; unfold is_u8; lia|]. vm_compute. reflexivity. Qed.
Print Assumptions C32_short_section_refuted.
(* A unit length that makes the next offset 2^64 - 4: the user's loop then reads outside. *)
Theorem C32_wrap_refuted : exists d u, bytes_ok d /\ next_unit true false (Some d) (Some []) 0 = Ok (NuUnit u) /\
  u_next u = two64 - 4 /\ next_unit true false (Some d) (Some []) (u_next u) = UB /\
  walk (S (S (length d))) true false (Some d) (Some []) 0 = UB.
Proof.
  exists ([255; 255; 255; 255] ++ le8 (two64 - 16) ++ le2 4 ++ le8 0 ++ repeat 8 9). eexists.
  split; [repeat constructor; unfold is_u8; lia|]. split; [vm_compute; reflexivity|]. vm_compute. repeat split; reflexivity.
Qed.
Print Assumptions C32_wrap_refuted.
(* A unit of version 5 in .debug_types: the type signature is read without a check. *)
Theorem C32_types5_refuted : exists d, bytes_ok d /\ room d 0 /\ next_unit true true (Some d) (Some []) 0 = UB.
Proof.
  exists (le4 12 ++ le2 5 ++ [1; 8] ++ le4 0 ++ repeat 0 4). split; [repeat constructor; unfold is_u8; lia|].
  split; [left; vm_compute; discriminate|]. vm_compute. reflexivity.
Qed.
Print Assumptions C32_types5_refuted.

(* ------------------------------------------------------------------ *)
(* C46: looking up units.  The chain of units of a section from an offset on: every
   unit has a supported version. *)
Definition supported (types : bool) (u : unit_hdr) : Prop := 2 <= u_version u <= 5 /\ (types = true -> u_version u = 4).
Definition unit_end (d : bytes) (u : unit_hdr) : Z := Z.min (zlen d) (u_next u).
Inductive unit_chain (fle types : bool) (d : bytes) (abb : option bytes) : Z -> list cu -> Prop :=
| chain_end : forall off, next_unit fle types (Some d) abb off = Ok NuEnd -> unit_chain fle types d abb off []
| chain_err : forall off n, next_unit fle types (Some d) abb off = Err n -> unit_chain fle types d abb off []
| chain_cons : forall off u c l, next_unit fle types (Some d) abb off = Ok (NuUnit u) -> supported types u ->
    c_start c = off -> c_end c = unit_end d u -> c_version c = u_version u -> c_osize c = u_osize u ->
    c_asize c = (if (u_asize u =? 4) || (u_asize u =? 8) then u_asize u else 8) -> c_abbrev c = u_abbrev u ->
    c_type c = (if types then 2 else if u_version u <? 5 then 1 else u_type u) ->
    unit_chain fle types d abb (c_end c) l -> unit_chain fle types d abb off (c :: l).

Lemma chain_starts : forall fle types d abb off l, bytes_ok d -> zlen d < two63 -> is_off off ->
  unit_chain fle types d abb off l -> Forall (fun c => off <= c_start c) l.
Proof.
  intros fle types d abb off l B ZL IO H. induction H as [off H|off n H|off u c l H SU E1 E2 E3 E4 E5 E6 E7 CH IH]; try constructor; [lia|].
  destruct (C32_progress _ _ _ _ _ _ B ZL IO H) as (P1 & P2 & _ & P4). unfold unit_end, is_off in *. specialize (IH ltac:(lia)).
  eapply Forall_impl; [|exact IH]. cbn beta. intros a A. lia.
Qed.

Lemma intern_chain : forall fle types d abb q l2, unit_chain fle types d abb (q_next q) l2 -> bytes_ok d -> zlen d < two63 -> is_off (q_next q) ->
  match l2 with
  | [] => exists q', intern_next_unit fle types (Some d) abb q = Ok (None, q') /\ q_tree q' = q_tree q /\ unit_chain fle types d abb (q_next q') [] /\ is_off (q_next q')
  | c :: l => exists q', intern_next_unit fle types (Some d) abb q = Ok (Some c, q') /\ q_tree q' = q_tree q ++ [c] /\
                c_start c = q_next q /\ q_next q' = c_end c /\ q_next q < q_next q' /\ unit_chain fle types d abb (q_next q') l /\ is_off (q_next q')
  end.
Proof.
  intros fle types d abb q l2 CH B ZL IO. unfold intern_next_unit. inversion CH as [off H|off n H|off u c l H SU E1 E2 E3 E4 E5 E6 E7 CH']; subst; rewrite H.
  - eexists. split; [reflexivity|]. split; [reflexivity|]. cbn. split; [constructor; unfold next_unit; rewrite Z.eqb_refl; reflexivity|unfold is_off; lia].
  - eexists. split; [reflexivity|]. split; [reflexivity|]. split; [exact CH|exact IO].
  - destruct SU as [SV ST].
    replace ((u_version u <? 2) || (5 <? u_version u) || (types && negb (u_version u =? 4))) with false.
    2:{ destruct types; cbn [andb]; [rewrite (ST eq_refl)|]; lia. }
    destruct (C32_progress _ _ _ _ _ _ B ZL IO H) as (P1 & P2 & _ & P4).
    assert (NX : (if zlen d <? u_next u then zlen d else u_next u) = c_end c).
    { rewrite E2. unfold unit_end. destruct (Z.ltb_spec (zlen d) (u_next u)); lia. }
    rewrite NX.
    match goal with |- context [Ok (Some ?x, _)] => assert (CE : x = c) end.
    { destruct c as [cs ce cv co ca cab ct]. cbn [c_start c_end c_version c_osize c_asize c_abbrev c_type] in *.
      unfold DW_UT_type, DW_UT_compile. subst. f_equal. destruct (u_asize u =? 4), (u_asize u =? 8); reflexivity. }
    rewrite CE. eexists. split; [reflexivity|]. cbn [q_tree q_next]. split; [reflexivity|]. split; [exact E1|]. split; [reflexivity|].
    unfold unit_end, is_off in *. split; [lia|]. split; [exact CH'|]. lia.
Qed.

(* The state reached after some units of the chain *)
Definition reached (fle types : bool) (d : bytes) (abb : option bytes) (l : list cu) (q : units) : Prop :=
  exists l2, l = q_tree q ++ l2 /\ unit_chain fle types d abb (q_next q) l2 /\ is_off (q_next q).

Lemma findcu_loop_spec : forall fle types d abb start, bytes_ok d -> zlen d < two63 -> forall l2 k q l,
  l = q_tree q ++ l2 -> unit_chain fle types d abb (q_next q) l2 -> is_off (q_next q) -> q_next q <= start -> (length l2 < k)%nat ->
  exists q', findcu_loop k fle types (Some d) abb q start = Ok (find (in_cu start) l2, q') /\ reached fle types d abb l q'.
Proof.
  intros fle types d abb start B ZL. induction l2 as [|c l2 IH]; intros k q l L CH IO ST K; destruct k as [|k]; try (cbn [length] in K; lia); cbn [findcu_loop];
    pose proof (intern_chain _ _ _ _ _ _ CH B ZL IO) as IC; cbn in IC.
  - destruct IC as (q' & -> & T & C' & I'). cbn [obind find]. exists q'. split; [reflexivity|]. exists []. rewrite T. split; [exact L|]. split; assumption.
  - destruct IC as (q' & -> & T & S0 & N & LT & C' & I'). cbn [obind find]. unfold in_cu at 1. rewrite S0, N.
    assert (L' : l = q_tree q' ++ l2) by (rewrite T, <- app_assoc; exact L).
    destruct (start <? c_end c) eqn:SE.
    + cbn [orb]. replace ((q_next q <=? start) && true) with true by lia. exists q'. split; [reflexivity|]. exists l2. split; [exact L'|]. split; assumption.
    + replace (start =? q_next q) with false by lia. rewrite andb_false_r. cbn [orb].
      apply IH; try assumption; [lia|cbn [length] in K; lia].
Qed.

Lemma find_app' : forall (f : cu -> bool) a b, find f (a ++ b) = match find f a with Some x => Some x | None => find f b end.
Proof. intros f. induction a as [|x a IH]; intros b; cbn; [reflexivity|]. destruct (f x); [reflexivity|apply IH]. Qed.

Lemma findcu_spec : forall fle types d abb start, bytes_ok d -> zlen d < two63 -> forall k q l,
  reached fle types d abb l q -> (length l < k)%nat ->
  exists q', findcu k fle types (Some d) abb q start = Ok (find (in_cu start) l, q') /\ reached fle types d abb l q'.
Proof.
  intros fle types d abb start B ZL k q l (l2 & L & CH & IO) K. unfold findcu.
  assert (FA : find (in_cu start) l = match find (in_cu start) (q_tree q) with Some x => Some x | None => find (in_cu start) l2 end) by (rewrite L; apply find_app').
  rewrite FA. clear FA.
  destruct (find (in_cu start) (q_tree q)) eqn:F.
  { exists q. split; [reflexivity|]. exists l2. split; [exact L|]. split; assumption. }
  destruct (Z.ltb_spec start (q_next q)) as [LT|GE].
  - assert (N : find (in_cu start) l2 = None).
    { pose proof (chain_starts _ _ _ _ _ _ B ZL IO CH) as FS. revert FS. clear - LT. induction l2 as [|c l2 IH]; [reflexivity|]. intros FS. inversion FS; subst. cbn [find].
      unfold in_cu at 1. replace (c_start c <=? start) with false by lia. cbn [andb]. apply IH. assumption. }
    rewrite N. exists q. split; [reflexivity|]. exists l2. split; [exact L|]. split; assumption.
  - apply findcu_loop_spec; try assumption. rewrite L, app_length in K. lia.
Qed.

(* A history of lookups, with the state it leaves *)
Fixpoint lookups (k : nat) (fle types : bool) (s abb : option bytes) (q : units) (hs : list Z) : outcome (list (option cu) * units) :=
  match hs with
  | [] => Ok ([], q)
  | h :: t => '(r, q) <- findcu k fle types s abb q h ;; '(rs, q) <- lookups k fle types s abb q t ;; Ok (r :: rs, q)
  end.

(* C46: in a section whose units all have a supported version, each lookup of every
   history gives the unit containing the offset, and nothing if there is none. *)
Theorem C46_findcu_partial : forall fle types d abb l hs, bytes_ok d -> zlen d < two63 ->
  unit_chain fle types d abb 0 l ->
  exists q, lookups (S (length l)) fle types (Some d) abb units0 hs = Ok (map (fun h => find (fun c => (c_start c <=? h) && (h <? c_end c)) l) hs, q).
Proof.
  intros fle types d abb l hs B ZL CH.
  assert (G : forall hs q, reached fle types d abb l q -> exists q', lookups (S (length l)) fle types (Some d) abb q hs = Ok (map (fun h => find (in_cu h) l) hs, q')).
  { clear hs. induction hs as [|h hs IH]; intros q R; cbn [lookups map]; [exists q; reflexivity|].
    destruct (findcu_spec fle types d abb h B ZL (S (length l)) q l R ltac:(lia)) as (q1 & -> & R1). cbn [obind].
    destruct (IH q1 R1) as (q2 & ->). cbn [obind]. exists q2. reflexivity. }
  apply G. exists l. split; [reflexivity|]. split; [exact CH|cbn; unfold is_off; lia].
Qed.
Print Assumptions C46_findcu_partial.

(* The units of the chain follow each other and are disjoint, so that at most one unit
   contains an offset. *)
Theorem C46_units_disjoint : forall fle types d abb l, bytes_ok d -> zlen d < two63 ->
  unit_chain fle types d abb 0 l ->
  (forall c, In c l -> 0 <= c_start c < c_end c /\ c_end c <= zlen d) /\
  (forall c1 c2 h, In c1 l -> In c2 l -> c_start c1 <= h < c_end c1 -> c_start c2 <= h < c_end c2 -> c1 = c2).
Proof.
  intros fle types d abb l B ZL CH.
  assert (G : forall off l, is_off off -> unit_chain fle types d abb off l ->
    Forall (fun c => off <= c_start c < c_end c /\ c_end c <= zlen d) l /\
    (forall c1 c2 h, In c1 l -> In c2 l -> c_start c1 <= h < c_end c1 -> c_start c2 <= h < c_end c2 -> c1 = c2)).
  { clear l CH. intros off l IO CH. induction CH as [off H|off n H|off u c l H SU E1 E2 E3 E4 E5 E6 E7 CH IH].
    - split; [constructor|intros c1 c2 h []].
    - split; [constructor|intros c1 c2 h []].
    - destruct (C32_progress _ _ _ _ _ _ B ZL IO H) as (P1 & P2 & _ & P4). unfold unit_end, is_off in *. destruct IH as [IH1 IH2]; [lia|].
      split.
      + constructor; [lia|]. eapply Forall_impl; [|exact IH1]. cbn beta. intros a A. lia.
      + rewrite Forall_forall in IH1. intros c1 c2 h [<-|I1] [<-|I2] H1 H2; [reflexivity| | |eapply IH2; eassumption].
        * specialize (IH1 c2 I2). lia.
        * specialize (IH1 c1 I1). lia. }
  destruct (G 0 l) as [G1 G2]; [unfold is_off; lia|exact CH|]. split; [|exact G2]. intros c I. rewrite Forall_forall in G1. exact (G1 c I).
Qed.
Print Assumptions C46_units_disjoint.

Example C46_nonvacuous :
  exists l, unit_chain true false info_ex (Some [0; 0]) 0 l /\ length l = 2%nat /\
  match lookups 3 true false (Some info_ex) (Some [0; 0]) units0 [20; 3; 53; 16] with
  | Ok (r, _) => map (option_map c_start) r = [Some 16; Some 0; None; Some 16]
  | _ => False
  end.
Proof.
  eexists. split.
  - eapply chain_cons with (c := CU 0 16 4 4 8 0 1); [vm_compute; reflexivity|vm_compute; split; [split; discriminate|discriminate]|reflexivity..|].
    eapply chain_cons with (c := CU 16 53 5 8 8 1 4); [vm_compute; reflexivity|vm_compute; split; [split; discriminate|discriminate]|reflexivity..|].
    apply chain_end. vm_compute. reflexivity.
  - split; [reflexivity|]. vm_compute. reflexivity.
Qed.

(* With a unit of an unsupported version in between the first lookup behind it fails,
   the same lookup repeated succeeds. *)
Definition info_v9 : bytes := le4 12 ++ le2 9 ++ [7; 0; 0; 0; 8] ++ repeat 0 5 ++ le4 12 ++ le2 4 ++ le4 0 ++ [8] ++ repeat 0 5.
(* A unit of unknown version precedes the unit: the first lookup fails, the second succeeds. *)
Theorem C46_findcu_refuted : exists d h c q1 q2, bytes_ok d /\
  findcu 10 true false (Some d) (Some []) units0 h = Ok (None, q1) /\
  findcu 10 true false (Some d) (Some []) q1 h = Ok (Some c, q2) /\ in_cu h c = true.
Proof.
  exists info_v9, 20. eexists. eexists. eexists. split; [repeat constructor; unfold is_u8; lia|].
  split; [vm_compute; reflexivity|]. split; vm_compute; reflexivity.
Qed.
Print Assumptions C46_findcu_refuted.
