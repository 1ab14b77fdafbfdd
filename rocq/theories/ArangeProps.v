(* C31: address ranges.

   Specification: an encoder of .debug_aranges (sets of ranges, DWARF section 6.1.2),
   "sorted permutation", and what it means that a range covers an address. *)
From Verif Require Import Base DwModel Slice ArangeModel.
From Coq Require Import Permutation Sorted.

(* ------------------------------------------------------------------ *)
(* Specification *)
(* One set: 64-bit format or not, the value of its length field, the offset of its unit,
   the address size, the padding bytes before the entries, the entries. *)
Record aset := ASet { s_64 : bool; s_len : Z; s_unit : Z; s_asize : Z; s_pad : bytes; s_ents : list (Z * Z) }.
Definition s_osize (s : aset) : Z := if s_64 s then 8 else 4.
Definition set_header (fle : bool) (s : aset) : bytes :=
  (if s_64 s then [255; 255; 255; 255] ++ enc fle 8 (s_len s) else enc fle 4 (s_len s)) ++
  enc fle 2 2 ++ enc fle (s_osize s) (s_unit s) ++ [s_asize s; 0].
Definition set_entries (fle : bool) (s : aset) : bytes :=
  concat (map (fun e => enc fle (s_asize s) (fst e) ++ enc fle (s_asize s) (snd e)) (s_ents s ++ [(0, 0)])).
Definition set_bytes (fle : bool) (s : aset) : bytes := set_header fle s ++ s_pad s ++ set_entries fle s.
(* The padding brings the entries to a multiple of twice the address size, counted from
   the start of the set; no entry looks like the terminator. *)
Definition set_ok (s : aset) : Prop :=
  (s_asize s = 4 \/ s_asize s = 8) /\
  0 <= s_len s < (if s_64 s then two64 else two32 - 16) /\ 0 <= s_unit s < 256 ^ s_osize s /\
  0 <= zlen (s_pad s) < 2 * s_asize s /\ (zlen (set_header true s) + zlen (s_pad s)) mod (2 * s_asize s) = 0 /\
  Forall (fun e => 0 <= fst e < 256 ^ s_asize s /\ 0 <= snd e < 256 ^ s_asize s /\ e <> (0, 0)) (s_ents s).
Definition set_ranges (die_of : Z -> Z) (s : aset) : list arange := map (fun e => AR (fst e) (snd e) (die_of (s_unit s))) (s_ents s).
Definition all_ranges (die_of : Z -> Z) (ss : list aset) : list arange := concat (map (set_ranges die_of) ss).

(* A sorting function: what qsort with compare_aranges promises *)
Definition by_addr (a b : arange) : Prop := a_addr a <= a_addr b.
Definition sorter (qs : list arange -> list arange) : Prop := forall l, Permutation l (qs l) /\ StronglySorted by_addr (qs l).

Definition covers (a : arange) (x : Z) : Prop := a_addr a <= x < a_addr a + a_len a.

(* ------------------------------------------------------------------ *)
(* Safety *)
Lemma read_address_cases : forall fle d p w, w = 4 \/ w = 8 ->
  (exists v, read_address fle d p w = Ok v /\ 0 <= p /\ p + w <= zlen d) \/ read_address fle d p w = Err DWARF_E_INVALID_OFFSET.
Proof.
  intros fle d p w W. unfold read_address, in_section.
  destruct ((p <? 0) || (zlen d <? w) || (zlen d - w <? p)) eqn:E; cbn [negb]; [right; reflexivity|left].
  replace (if w =? 4 then 4 else 8) with w by (destruct W as [-> | ->]; reflexivity).
  rewrite rd_in by lia. eexists. split; [reflexivity|lia].
Qed.
Lemma read_offset_cases : forall fle d p w s sz, w = 4 \/ w = 8 ->
  (exists v, read_offset fle d p w s sz = Ok v /\ 0 <= p /\ p + w <= zlen d) \/ (exists n, read_offset fle d p w s sz = Err n).
Proof.
  intros fle d p w s sz W. unfold read_offset. destruct (read_address_cases fle d p w W) as [(v & -> & H)| ->]; cbn [obind]; [|right; eexists; reflexivity].
  unfold offset_in_section. destruct s; cbn [obind]; [|right; eexists; reflexivity].
  match goal with |- context [if ?b then _ else _] => destruct b end; cbn [obind]; [right; eexists; reflexivity|left; eexists; split; [reflexivity|exact H]].
Qed.

Lemma entries_safe : forall fle d isz cu_of asize offset, asize = 4 \/ asize = 8 -> (match cu_of offset with Ok _ | Err _ => True | _ => False end) ->
  forall k p acc, 0 <= p -> zlen d - p < Z.of_nat k -> (0 < k)%nat -> 8 * zlen acc <= p ->
  match ar_entries fle d isz cu_of k p asize offset acc with
  | Ok (acc', p') => p < p' <= zlen d /\ 8 * zlen acc' <= p'
  | Err _ => True
  | _ => False
  end.
Proof.
  intros fle d isz cu_of asize offset W CU. induction k as [|k IH]; intros p acc P K K0 L; [lia|]. cbn [ar_entries].
  destruct (read_address_cases fle d p asize W) as [(v & -> & _ & H)| ->]; cbn [obind]; [|exact I].
  destruct (zlen d <? p + asize + asize) eqn:E; [exact I|]. rewrite rd_in by lia. cbn [obind].
  match goal with |- context [if ?b then _ else _] => destruct b end; [lia|].
  destruct (cu_of offset); cbn [obind]; try exact I; try contradiction.
  destruct (isz <=? a); [exact I|].
  specialize (IH (p + asize + asize) (AR v (fval fle (zsub d (p + asize) asize)) a :: acc)).
  assert (X : match ar_entries fle d isz cu_of k (p + asize + asize) asize offset (AR v (fval fle (zsub d (p + asize) asize)) a :: acc) with
    | Ok (acc', p') => p + asize + asize < p' <= zlen d /\ 8 * zlen acc' <= p' | Err _ => True | _ => False end).
  { apply IH; try lia. rewrite zlen_cons. lia. }
  destruct (ar_entries fle d isz cu_of k (p + asize + asize) asize offset (AR v (fval fle (zsub d (p + asize) asize)) a :: acc)) as [[acc' p']| | |]; try exact X. lia.
Qed.

Lemma sets_safe : forall fle d isz info cu_of, (forall o, match cu_of o with Ok _ | Err _ => True | _ => False end) ->
  forall k p acc, 0 <= p <= zlen d -> zlen d - p < Z.of_nat k -> 8 * zlen acc <= p ->
  match ar_sets fle d isz info cu_of k p acc with Ok acc' => 8 * zlen acc' <= zlen d | Err _ => True | _ => False end.
Proof.
  intros fle d isz info cu_of CU. induction k as [|k IH]; intros p acc P K L; [lia|]. cbn [ar_sets].
  destruct (zlen d <=? p) eqn:E0; [lia|]. destruct (zlen d <? p + 4) eqn:E1; [exact I|].
  rewrite rd_in by lia. cbn [obind]. set (len0 := fval fle (zsub d p 4)).
  match goal with |- context [if ?b then _ else _] => destruct b eqn:E2; [exact I|] end.
  match goal with |- context [if ?b then _ else _] => destruct b eqn:E3; [exact I|] end.
  set (q := if len0 =? LENGTH_64_BIT then p + 4 + 8 else p + 4).
  assert (Q : p + 4 <= q /\ q <= zlen d) by (unfold q; destruct (len0 =? LENGTH_64_BIT); cbn [andb] in E2; lia).
  set (lb := if len0 =? LENGTH_64_BIT then 8 else 4). assert (LB : lb = 4 \/ lb = 8) by (unfold lb; destruct (len0 =? LENGTH_64_BIT); lia).
  cbv zeta. destruct (zlen d <? q + 2) eqn:E4; [exact I|]. rewrite rd_in by lia. cbn [obind].
  match goal with |- context [if ?b then _ else _] => destruct b eqn:E5; [exact I|] end.
  destruct (read_offset_cases fle d (q + 2) lb info 4 LB) as [(offset & -> & _ & H)|(n & ->)]; cbn [obind]; [|exact I].
  destruct (zlen d <? q + 2 + lb + 2) eqn:E6; [exact I|]. rewrite rd_in by lia. cbn [obind]. set (asize := fval fle (zsub d (q + 2 + lb) 1)).
  match goal with |- context [if ?b then _ else _] => destruct b eqn:E7; [exact I|] end.
  rewrite rd_in by lia. cbn [obind].
  match goal with |- context [if ?b then _ else _] => destruct b eqn:E8; [exact I|] end.
  assert (W : asize = 4 \/ asize = 8) by lia.
  set (r := q + 2 + lb + 2 + (2 * asize - (q + 2 + lb + 2 - p) mod (2 * asize)) mod (2 * asize)).
  assert (R : q + 2 + lb + 2 <= r) by (unfold r; pose proof (Z.mod_pos_bound (2 * asize - (q + 2 + lb + 2 - p) mod (2 * asize)) (2 * asize)); lia).
  pose proof (entries_safe fle d isz cu_of asize offset W (CU offset) k r acc ltac:(lia) ltac:(lia) ltac:(lia) ltac:(lia)) as ES.
  destruct (ar_entries fle d isz cu_of k r asize offset acc) as [[acc' p']| | |]; cbn [obind]; try contradiction; try exact I.
  apply IH; lia.
Qed.

(* ------------------------------------------------------------------ *)
(* The overlapping copy *)
Lemma copy_out_spec : forall sorted n, n = zlen sorted -> forall k i buf, i + Z.of_nat k = n -> 0 <= i -> zlen buf = 3 * n ->
  (forall j, 0 <= j < i -> info_of buf j = znth sorted j) ->
  (forall j a, i <= j < n -> znth sorted j = Some a -> znth buf (2 * n + j) = Some (Ptr a)) ->
  exists buf', copy_out k n i buf = Ok buf' /\ zlen buf' = 3 * n /\ forall j, 0 <= j < n -> info_of buf' j = znth sorted j.
Proof.
  intros sorted n N. induction k as [|k IH]; intros i buf K I0 L D P; cbn [copy_out].
  { exists buf. split; [reflexivity|]. split; [exact L|]. intros j J. apply D. lia. }
  destruct (znth sorted i) as [a|] eqn:Si.
  2:{ exfalso. unfold znth in Si. replace ((0 <=? i) && (i <? zlen sorted)) with true in Si by lia. apply nth_error_None in Si. unfold zlen in *. lia. }
  rewrite (P i a ltac:(lia) Si).
  assert (OTH : forall j b x1 x2 x3, j <> 3 * i -> j <> 3 * i + 1 -> j <> 3 * i + 2 -> znth (zset (zset (zset b (3 * i) x1) (3 * i + 1) x2) (3 * i + 2) x3) j = @znth word b j).
  { intros j b x1 x2 x3 N1 N2 N3. rewrite !znth_zset_neq by lia. reflexivity. }
  apply IH; [lia|lia|rewrite !zlen_zset; exact L| |].
  - intros j J. destruct (Z.eq_dec j i) as [->|NJ].
    + unfold info_of. rewrite (znth_zset_neq _ _ (3 * i + 2) (3 * i)) by lia. rewrite (znth_zset_neq _ _ (3 * i + 1) (3 * i)) by lia.
      rewrite znth_zset_eq by lia. rewrite (znth_zset_neq _ _ (3 * i + 2) (3 * i + 1)) by lia. rewrite znth_zset_eq by (rewrite zlen_zset; lia).
      rewrite znth_zset_eq by (rewrite !zlen_zset; lia). rewrite Si. destruct a; reflexivity.
    + unfold info_of. rewrite !OTH by lia. apply D. lia.
  - intros j b J Sj. rewrite OTH by lia. apply P; [lia|exact Sj].
Qed.

Lemma znth_map' : forall A B (f : A -> B) l i, znth (map f l) i = option_map f (znth l i).
Proof. intros A B f l i. unfold znth, zlen. rewrite map_length. destruct ((0 <=? i) && (i <? Z.of_nat (length l))); [|reflexivity]. apply nth_error_map. Qed.

Lemma getaranges_result : forall fle d isz info cu_of qs k acc, sorter qs -> zlen acc < two32 ->
  ar_sets fle d isz info cu_of k 0 [] = Ok acc ->
  exists buf, getaranges fle d isz info cu_of qs k = Ok (zlen acc, buf) /\
    forall j, 0 <= j < zlen acc -> info_of buf j = znth (qs (rev acc)) j.
Proof.
  intros fle d isz info cu_of qs k acc QS LT H. unfold getaranges. rewrite H. cbn [obind].
  pose proof (zlen_nonneg _ acc). unfold u32. rewrite Z.mod_small by lia. destruct (Z.eqb_spec (zlen acc) 0) as [E0|N0].
  { rewrite E0. exists []. split; [reflexivity|]. intros j J. lia. }
  rewrite Z.eqb_refl. cbn [negb].
  assert (LQ : zlen acc = zlen (qs (rev acc))).
  { destruct (QS (rev acc)) as [PQ _]. apply Permutation_length in PQ. rewrite rev_length in PQ. unfold zlen. lia. }
  destruct (copy_out_spec (qs (rev acc)) (zlen acc) LQ (Z.to_nat (zlen acc)) 0 (repeat (Num 0) (Z.to_nat (2 * zlen acc)) ++ map Ptr (qs (rev acc)))) as (buf & -> & LB & R).
  - lia.
  - lia.
  - rewrite zlen_app, zlen_repeat. unfold zlen at 2. rewrite map_length. fold (zlen (qs (rev acc))). lia.
  - intros j J. lia.
  - intros j a J Sj. rewrite znth_app_r by (rewrite zlen_repeat; lia). rewrite zlen_repeat.
    replace (2 * zlen acc + j - Z.of_nat (Z.to_nat (2 * zlen acc))) with j by lia. rewrite znth_map', Sj. reflexivity.
  - cbn [obind]. exists buf. split; [reflexivity|exact R].
Qed.

(* ------------------------------------------------------------------ *)
(* Decoding *)
Lemma zlen_hdr : forall fle s, zlen (set_header fle s) = zlen (set_header true s).
Proof. intros fle s. unfold set_header, s_osize. destruct (s_64 s); rewrite ?zlen_app, ?zlen_cons, ?zlen_app, ?zlen_enc by lia; reflexivity. Qed.

Lemma entries_decode : forall fle d isz cu_of asize offset die, asize = 4 \/ asize = 8 -> cu_of offset = Ok die -> die < isz ->
  forall ents k p acc, Forall (fun e => 0 <= fst e < 256 ^ asize /\ 0 <= snd e < 256 ^ asize /\ e <> (0, 0)) ents -> (length ents < k)%nat ->
  at_ d p (concat (map (fun e => enc fle asize (fst e) ++ enc fle asize (snd e)) (ents ++ [(0, 0)]))) ->
  ar_entries fle d isz cu_of k p asize offset acc = Ok (rev (map (fun e => AR (fst e) (snd e) die) ents) ++ acc, p + 2 * asize * (zlen ents + 1)).
Proof.
  intros fle d isz cu_of asize offset die W CU DI. induction ents as [|[a l] ents IH]; intros k p acc F K H; destruct k as [|k]; try (cbn [length] in K; lia); cbn [ar_entries].
  - cbn [app map concat fst snd] in H. rewrite app_nil_r in H. 
    pose proof (at_app1 _ _ _ _ H) as H1. pose proof (at_app2 _ _ _ _ H) as H2. rewrite zlen_enc in H2 by lia.
    pose proof (at_bound _ _ _ H1) as B1. pose proof (at_bound _ _ _ H2) as B2. rewrite zlen_enc in B1, B2 by lia.
    assert (RA : read_address fle d p asize = Ok 0).
    { unfold read_address, in_section. replace (negb ((p <? 0) || (zlen d <? asize) || (zlen d - asize <? p))) with true by lia.
      replace (if asize =? 4 then 4 else 8) with asize by (destruct W as [-> | ->]; reflexivity). apply rd_at; [lia|destruct W as [-> | ->]; cbn; lia|exact H1]. }
    rewrite RA. cbn [obind]. replace (zlen d <? p + asize + asize) with false by lia.
    rewrite (rd_at fle d (p + asize) asize 0); [|lia|destruct W as [-> | ->]; cbn; lia|exact H2]. cbn [obind]. cbn [Z.eqb andb map rev app]. do 2 f_equal. change (zlen (@nil (Z * Z))) with 0. lia.
  - inversion F as [|x l' [F1 [F2 F3]] F4]; subst. cbn [fst snd] in F1, F2. cbn [app map concat fst snd] in H.
    rewrite <- app_assoc in H. pose proof (at_app1 _ _ _ _ H) as H1. pose proof (at_app2 _ _ _ _ H) as H2. rewrite zlen_enc in H2 by lia.
    pose proof (at_app1 _ _ _ _ H2) as H3. pose proof (at_app2 _ _ _ _ H2) as H4. rewrite zlen_enc in H4 by lia.
    pose proof (at_bound _ _ _ H1) as B1. pose proof (at_bound _ _ _ H3) as B2. rewrite zlen_enc in B1, B2 by lia.
    assert (RA : read_address fle d p asize = Ok a).
    { unfold read_address, in_section. replace (negb ((p <? 0) || (zlen d <? asize) || (zlen d - asize <? p))) with true by lia.
      replace (if asize =? 4 then 4 else 8) with asize by (destruct W as [-> | ->]; reflexivity). apply rd_at; [lia|exact F1|exact H1]. }
    rewrite RA. cbn [obind]. replace (zlen d <? p + asize + asize) with false by lia.
    rewrite (rd_at fle d (p + asize) asize l); [|lia|exact F2|exact H3]. cbn [obind].
    replace ((a =? 0) && (l =? 0)) with false.
    2:{ symmetry. destruct (Z.eqb_spec a 0), (Z.eqb_spec l 0); try reflexivity. subst. congruence. }
    rewrite CU. cbn [obind]. replace (isz <=? die) with false by lia.
    rewrite IH; [|exact F4|cbn [length] in K; lia|exact H4]. rewrite zlen_cons. cbn [map rev fst snd]. rewrite <- app_assoc. cbn [app]. do 2 f_equal. lia.
Qed.

Lemma concat_len : forall fle asize ents, 0 <= asize -> zlen (concat (map (fun e : Z * Z => enc fle asize (fst e) ++ enc fle asize (snd e)) ents)) = 2 * asize * zlen ents.
Proof.
  intros fle asize ents A. induction ents as [|e ents IH]; [cbn [map concat]; change (zlen (@nil (Z*Z))) with 0; change (zlen (@nil Z)) with 0; lia|].
  cbn [map concat]. rewrite !zlen_app, !zlen_enc by lia. rewrite IH, zlen_cons. lia.
Qed.

Lemma set_decode : forall fle d isz info cu_of die s, set_ok s -> cu_of (s_unit s) = Ok die -> die < isz ->
  (exists i, info = Some i /\ s_unit s + 4 <= zlen i) ->
  forall k p acc, (length (s_ents s) < k)%nat -> at_ d p (set_bytes fle s) ->
  ar_sets fle d isz info cu_of (S k) p acc = ar_sets fle d isz info cu_of k (p + zlen (set_bytes fle s)) (rev (map (fun e => AR (fst e) (snd e) die) (s_ents s)) ++ acc).
Proof.
  intros fle d isz info cu_of die s (W & SL & SU & SP & SM & SE) CU DI (inf & -> & UI) k p acc K H.
  pose proof (at_bound _ _ _ H) as BD. unfold set_bytes in H, BD. rewrite !zlen_app in BD.
  pose proof (at_app1 _ _ _ _ H) as HH. pose proof (at_app2 _ _ _ _ H) as HR. pose proof (at_app2 _ _ _ _ HR) as HE. clear H HR.
  rewrite zlen_hdr in HE. 
  assert (HL : zlen (set_header true s) = (if s_64 s then 24 else 12)).
  { unfold set_header, s_osize. destruct (s_64 s); rewrite ?zlen_app, ?zlen_cons, ?zlen_app, ?zlen_enc by lia; reflexivity. }
  pose proof (zlen_nonneg _ (set_entries fle s)) as EN. rewrite zlen_hdr, HL in BD. 
  cbn [ar_sets]. replace (zlen d <=? p) with false by (destruct (s_64 s); lia). replace (zlen d <? p + 4) with false by (destruct (s_64 s); lia).
  set (osz := s_osize s) in *. assert (OW : osz = 4 \/ osz = 8) by (unfold osz, s_osize; destruct (s_64 s); lia).
  (* length field *)
  unfold set_header in HH. fold osz in HH. pose proof (at_app1 _ _ _ _ HH) as HLEN. pose proof (at_app2 _ _ _ _ HH) as HT. clear HH.
  assert (R0 : exists len0, rd fle d p 4 = Ok len0 /\ (len0 =? LENGTH_64_BIT) = s_64 s /\ (negb (len0 =? LENGTH_64_BIT) && (LENGTH_MIN_ESCAPE <=? len0)) = false).
  { destruct (s_64 s).
    - exists LENGTH_64_BIT. split; [|split; reflexivity]. apply rd_at; [lia|unfold LENGTH_64_BIT; cbn; lia|].
      replace (enc fle 4 LENGTH_64_BIT) with [255; 255; 255; 255] by (destruct fle; reflexivity). exact (at_app1 _ _ _ _ HLEN).
    - exists (s_len s). split; [apply rd_at; [lia|cbn; lia|exact HLEN]|]. unfold LENGTH_64_BIT, LENGTH_MIN_ESCAPE. lia. }
  destruct R0 as (len0 & R0 & L64 & LESC). rewrite R0. cbn [obind]. rewrite LESC, L64.
  replace (s_64 s && (zlen d <? p + 4 + 8)) with false by (destruct (s_64 s); cbn [andb]; lia). cbv zeta.
  assert (LB : (if s_64 s then 8 else 4) = osz) by reflexivity. rewrite LB.
  set (lw := if s_64 s then 12 else 4). replace (if s_64 s then p + 4 + 8 else p + 4) with (p + lw) by (unfold lw; destruct (s_64 s); lia).
  assert (LW : lw = 2 * osz - 4) by (unfold lw, osz, s_osize; destruct (s_64 s); reflexivity).
  assert (HD2 : (if s_64 s then 24 else 12) = lw + 2 + osz + 2) by (unfold lw, osz, s_osize; destruct (s_64 s); reflexivity). rewrite HD2 in *.
  assert (ZLEN : zlen (if s_64 s then [255; 255; 255; 255] ++ enc fle 8 (s_len s) else enc fle 4 (s_len s)) = lw).
  { unfold lw. destruct (s_64 s); rewrite ?zlen_app, ?zlen_enc by lia; reflexivity. }
  rewrite ZLEN in HT. replace (zlen d <? p + lw + 2) with false by lia.
  pose proof (at_app1 _ _ _ _ HT) as HV. pose proof (at_app2 _ _ _ _ HT) as HT2. rewrite zlen_enc in HT2 by lia.
  rewrite (rd_at fle d (p + lw) 2 2); [|lia|cbn; lia|exact HV]. cbn [obind Z.eqb Pos.eqb negb].
  pose proof (at_app1 _ _ _ _ HT2) as HO. pose proof (at_app2 _ _ _ _ HT2) as HT3. rewrite zlen_enc in HT3 by lia.
  assert (RO : read_offset fle d (p + lw + 2) osz (Some inf) 4 = Ok (s_unit s)).
  { unfold read_offset, read_address, in_section. replace (negb ((p + lw + 2 <? 0) || (zlen d <? osz) || (zlen d - osz <? p + lw + 2))) with true by lia.
    replace (if osz =? 4 then 4 else 8) with osz by (destruct OW as [-> | ->]; reflexivity).
    rewrite (rd_at fle d (p + lw + 2) osz (s_unit s)); [|lia|exact SU|exact HO]. cbn [obind]. unfold offset_in_section.
    replace ((zlen inf <? s_unit s) || (zlen inf <? 4) || (zlen inf - 4 <? s_unit s)) with false by lia. reflexivity. }
  rewrite RO. cbn [obind]. replace (zlen d <? p + lw + 2 + osz + 2) with false by lia.
  rewrite (rd_at1 fle d (p + lw + 2 + osz) (s_asize s) [0]); [|lia|exact HT3]. cbn [obind].
  replace (negb (s_asize s =? 4) && negb (s_asize s =? 8)) with false by lia.
  change [s_asize s; 0] with ([s_asize s] ++ [0]) in HT3. pose proof (at_app2 _ _ _ _ HT3) as HZ. change (zlen [s_asize s]) with 1 in HZ.
  rewrite (rd_at1 fle d (p + lw + 2 + osz + 1) 0 []); [|lia|exact HZ]. cbn [obind Z.eqb negb].
  replace (p + lw + 2 + osz + 2 - p) with (lw + 2 + osz + 2) by lia.
  assert (PAD : (2 * s_asize s - (lw + 2 + osz + 2) mod (2 * s_asize s)) mod (2 * s_asize s) = zlen (s_pad s)).
  { rewrite HL in SM. set (m := 2 * s_asize s) in *. set (h := lw + 2 + osz + 2) in *. assert (M : 0 < m) by lia. clearbody m h.
    apply Z.mod_divide in SM; [|lia]. destruct SM as [c SM]. 
    pose proof (Z.mod_pos_bound h m M). pose proof (Z.div_mod h m ltac:(lia)).
    symmetry. apply Z.mod_unique with (q := (h / m + 1 - c)); [left; lia|]. nia. }
  rewrite PAD. rewrite HL in HE.
  replace (p + lw + 2 + osz + 2 + zlen (s_pad s)) with (p + (lw + 2 + osz + 2) + zlen (s_pad s)) by lia.
  rewrite (entries_decode fle d isz cu_of (s_asize s) (s_unit s) die W CU DI (s_ents s) k _ acc SE K HE). cbn [obind].
  f_equal. unfold set_bytes. rewrite !zlen_app, zlen_hdr, HL. unfold set_entries. rewrite concat_len by lia. rewrite zlen_app. change (zlen [(0, 0)]) with 1. lia.
Qed.

Lemma sets_decode : forall fle isz info cu_of die_of ss d p k acc,
  Forall (fun s => set_ok s /\ cu_of (s_unit s) = Ok (die_of (s_unit s)) /\ die_of (s_unit s) < isz /\ (exists i, info = Some i /\ s_unit s + 4 <= zlen i)) ss ->
  at_ d p (concat (map (set_bytes fle) ss)) -> p + zlen (concat (map (set_bytes fle) ss)) = zlen d ->
  zlen d - p < Z.of_nat k ->
  ar_sets fle d isz info cu_of k p acc = Ok (rev (all_ranges die_of ss) ++ acc).
Proof.
  intros fle isz info cu_of die_of. induction ss as [|s ss IH]; intros d p k acc F H E K; (destruct k as [|k]; [pose proof (zlen_nonneg _ (concat (map (set_bytes fle) (@nil aset)))); try (pose proof (zlen_nonneg _ (concat (map (set_bytes fle) (s :: ss))))); cbn [map concat] in *; lia|]).
  - cbn [map concat] in *. change (zlen (@nil Z)) with 0 in E. cbn [ar_sets]. replace (zlen d <=? p) with true by lia. reflexivity.
  - inversion F as [|x y (F1 & F2 & F3 & F4) F5]; subst. cbn [map concat] in H, E.
    pose proof (at_app1 _ _ _ _ H) as H1. pose proof (at_app2 _ _ _ _ H) as H2. rewrite zlen_app in E.
    assert (BL : 8 * zlen (s_ents s) + 1 <= zlen (set_bytes fle s)).
    { unfold set_bytes, set_entries. rewrite !zlen_app, concat_len by (destruct F1 as ([-> | ->] & _); lia). rewrite zlen_app. change (zlen [(0, 0)]) with 1.
      pose proof (zlen_nonneg _ (s_ents s)). pose proof (zlen_nonneg _ (set_header fle s)). pose proof (zlen_nonneg _ (s_pad s)). destruct F1 as ([-> | ->] & _); lia. }
    pose proof (zlen_nonneg _ (concat (map (set_bytes fle) ss))) as CN. pose proof (zlen_nonneg _ (s_ents s)) as EN.
    rewrite (set_decode fle d isz info cu_of (die_of (s_unit s)) s F1 F2 F3 F4 k p acc); [|unfold zlen in *; lia|exact H1].
    rewrite (IH d (p + zlen (set_bytes fle s)) k); [|exact F5|exact H2|lia|lia].
    unfold all_ranges. cbn [map concat]. rewrite rev_app_distr, <- app_assoc. reflexivity.
Qed.

(* C31: all the ranges of the section, sorted by address *)
Theorem C31_getaranges : forall fle isz info cu_of die_of qs ss, sorter qs ->
  let d := concat (map (set_bytes fle) ss) in zlen d < 17179869184 ->
  Forall (fun s => set_ok s /\ cu_of (s_unit s) = Ok (die_of (s_unit s)) /\ die_of (s_unit s) < isz /\ (exists i, info = Some i /\ s_unit s + 4 <= zlen i)) ss ->
  exists n buf r, getaranges fle d isz info cu_of qs (S (length d)) = Ok (n, buf) /\
    n = zlen r /\ (forall i, 0 <= i < n -> info_of buf i = znth r i) /\
    Permutation (all_ranges die_of ss) r /\ StronglySorted (fun a b => a_addr a <= a_addr b) r.
Proof.
  intros fle isz info cu_of die_of qs ss QS d ZL F.
  pose proof (sets_decode fle isz info cu_of die_of ss d 0 (S (length d)) [] F (at_all d) ltac:(unfold d; lia) ltac:(unfold zlen; lia)) as H.
  rewrite app_nil_r in H. set (acc := rev (all_ranges die_of ss)) in *.
  assert (LA : zlen acc < two32).
  { assert (8 * zlen acc <= zlen d); [|lia]. unfold acc. rewrite zlen_rev. unfold d, all_ranges. clear - F. induction F as [|s ss (F1 & _) F2 IH]; cbn [map concat]; [change (zlen (@nil arange)) with 0; change (zlen (@nil Z)) with 0; lia|].
    rewrite !zlen_app. unfold set_ranges at 1. unfold zlen at 1. rewrite map_length. fold (zlen (s_ents s)).
    assert (8 * zlen (s_ents s) <= zlen (set_bytes fle s)); [|lia].
    unfold set_bytes, set_entries. rewrite !zlen_app, concat_len by (destruct F1 as ([-> | ->] & _); lia). rewrite zlen_app. change (zlen [(0, 0)]) with 1.
    pose proof (zlen_nonneg _ (s_ents s)). pose proof (zlen_nonneg _ (set_header fle s)). pose proof (zlen_nonneg _ (s_pad s)). destruct F1 as ([-> | ->] & _); lia. }
  destruct (getaranges_result fle d isz info cu_of qs (S (length d)) acc QS LA H) as (buf & G & R).
  exists (zlen acc), buf, (qs (rev acc)). destruct (QS (rev acc)) as [P1 P2]. unfold acc in P1 at 1. rewrite rev_involutive in P1.
  split; [exact G|]. split.
  - apply Permutation_length in P1. unfold acc at 1. rewrite zlen_rev. unfold zlen. rewrite P1. reflexivity.
  - split; [exact R|]. split; [exact P1|exact P2].
Qed.
Print Assumptions C31_getaranges.

(* C31: whatever the section contains, no read outside it, and the loops end *)
Theorem C31_safe : forall fle d isz info cu_of qs, zlen d < 17179869184 -> sorter qs ->
  (forall o, match cu_of o with Ok _ | Err _ => True | _ => False end) ->
  exists r, getaranges fle d isz info cu_of qs (S (length d)) = r /\ match r with Ok _ | Err _ => True | UB | Fuel => False end.
Proof.
  intros fle d isz info cu_of qs ZL QS CU. eexists. split; [reflexivity|].
  pose proof (zlen_nonneg _ d). pose proof (sets_safe fle d isz info cu_of CU (S (length d)) 0 [] ltac:(lia) ltac:(unfold zlen; lia) ltac:(cbn; lia)) as S0.
  destruct (ar_sets fle d isz info cu_of (S (length d)) 0 []) as [acc| | |] eqn:E; try contradiction.
  - destruct (getaranges_result fle d isz info cu_of qs (S (length d)) acc QS ltac:(lia) E) as (buf & -> & _). exact I.
  - unfold getaranges. rewrite E. exact I.
Qed.
Print Assumptions C31_safe.

(* ------------------------------------------------------------------ *)
(* Lookup *)
(* What the search considers a hit: the first address of a range always counts. *)
Definition hits (a : arange) (x : Z) : Prop := a_addr a = x \/ covers a x.

Lemma znth_sorted : forall l i j a b, StronglySorted by_addr l -> znth l i = Some a -> znth l j = Some b -> i < j -> a_addr a <= a_addr b.
Proof.
  induction l as [|y l IH]; intros i j a b SS A B IJ.
  { rewrite znth_out in A by (change (zlen (@nil arange)) with 0; lia). discriminate. }
  inversion SS as [|y' l' SS' FA]; subst.
  assert (BO : forall i v, znth (y :: l) i = Some v -> i = 0 /\ v = y \/ 0 < i /\ znth l (i - 1) = Some v).
  { intros i0 v Z. unfold znth in Z. rewrite zlen_cons in Z. destruct ((0 <=? i0) && (i0 <? 1 + zlen l)) eqn:E; [|discriminate].
    destruct (Z.eq_dec i0 0) as [->|N]; [left; cbn in Z; split; [reflexivity|congruence]|right]. split; [lia|].
    unfold znth. replace ((0 <=? i0 - 1) && (i0 - 1 <? zlen l)) with true by lia.
    replace (Z.to_nat i0) with (S (Z.to_nat (i0 - 1))) in Z by lia. exact Z. }
  destruct (BO _ _ B) as [[-> ->]|[J0 B']].
  { destruct (BO _ _ A) as [[-> ->]|[I0 _]]; lia. }
  destruct (BO _ _ A) as [[-> ->]|[I0 A']].
  - rewrite Forall_forall in FA. apply FA. unfold znth in B'. destruct ((0 <=? j - 1) && (j - 1 <? zlen l)); [|discriminate]. eapply nth_error_In, B'.
  - eapply IH; try eassumption. lia.
Qed.

Definition disjoint (l : list arange) : Prop :=
  forall i j a b, i < j -> znth l i = Some a -> znth l j = Some b -> a_addr a + a_len a <= a_addr b /\ a_addr a < a_addr b.

Lemma search_spec : forall l x, disjoint l -> (forall a, In a l -> 0 <= a_len a) -> forall k lo hi, 0 <= lo <= hi -> hi <= zlen l -> hi - lo < Z.of_nat k ->
  (forall i a, 0 <= i < lo -> znth l i = Some a -> ~ hits a x) -> (forall i a, hi <= i -> znth l i = Some a -> ~ hits a x) ->
  (exists i a, ar_search k l x lo hi = Ok (Some i) /\ znth l i = Some a /\ hits a x) \/
  (ar_search k l x lo hi = Ok None /\ forall a, In a l -> ~ hits a x).
Proof.
  intros l x DJ LN. induction k as [|k IH]; intros lo hi LH HZ K A B; [lia|]. cbn [ar_search].
  destruct (Z.ltb_spec lo hi) as [LT|GE].
  2:{ right. split; [reflexivity|]. intros a I. apply In_nth_error in I as [n I].
      assert (Z : znth l (Z.of_nat n) = Some a).
      { unfold znth. assert ((n < length l)%nat) by (apply nth_error_Some; congruence). unfold zlen. replace ((0 <=? Z.of_nat n) && (Z.of_nat n <? Z.of_nat (length l))) with true by lia. rewrite Nat2Z.id. exact I. }
      destruct (Z.lt_ge_cases (Z.of_nat n) lo); [apply (A (Z.of_nat n)); [lia|exact Z]|apply (B (Z.of_nat n)); [lia|exact Z]]. }
  set (idx := (lo + hi) / 2). assert (IX : lo <= idx < hi) by (unfold idx; pose proof (Z.div_mod (lo + hi) 2); pose proof (Z.mod_pos_bound (lo + hi) 2); lia).
  destruct (znth l idx) as [a|] eqn:E.
  2:{ exfalso. unfold znth in E. replace ((0 <=? idx) && (idx <? zlen l)) with true in E by lia. apply nth_error_None in E. unfold zlen in *. lia. }
  assert (AL : 0 <= a_len a). { apply LN. unfold znth in E. destruct ((0 <=? idx) && (idx <? zlen l)); [|discriminate]. eapply nth_error_In, E. }
  destruct (Z.ltb_spec x (a_addr a)) as [XL|XG].
  - apply IH; [lia|lia|lia|exact A|]. intros i b I Zb. unfold hits, covers.
    destruct (Z.eq_dec i idx) as [->|NI]; [assert (b = a) by congruence; subst; lia|].
    destruct (DJ idx i a b ltac:(lia) E Zb). lia.
  - destruct ((a_addr a <? x) && (a_len a <=? x - a_addr a)) eqn:C.
    + apply IH; [lia|lia|lia| |exact B]. intros i b I Zb. unfold hits, covers.
      destruct (Z.eq_dec i idx) as [->|NI]; [assert (b = a) by congruence; subst; lia|].
      destruct (DJ i idx b a ltac:(lia) Zb E). lia.
    + left. exists idx, a. split; [reflexivity|]. split; [exact E|]. unfold hits, covers. lia.
Qed.

(* C31: lookup in a sorted table of disjoint ranges.  A range "hits" when it covers the
   address or starts at it.  For ranges that are not empty this is covering. *)
Theorem C31_lookup : forall l x, disjoint l -> (forall a, In a l -> 0 < a_len a) ->
  (exists i a, getarange_addr (S (length l)) l x = Ok (Some i) /\ znth l i = Some a /\ covers a x) \/
  (getarange_addr (S (length l)) l x = Ok None /\ forall a, In a l -> ~ covers a x).
Proof.
  intros l x DJ LN. pose proof (zlen_nonneg _ l).
  destruct (search_spec l x DJ (fun a I => Z.lt_le_incl _ _ (LN a I)) (S (length l)) 0 (zlen l)) as [(i & a & S1 & S2 & S3)|(S1 & S2)].
  - lia.
  - lia.
  - unfold zlen. lia.
  - intros; lia.
  - intros i a I Z. exfalso. unfold znth in Z. replace ((0 <=? i) && (i <? zlen l)) with false in Z by lia. discriminate.
  - left. exists i, a. split; [exact S1|]. split; [exact S2|]. destruct S3 as [S3|S3]; [|exact S3].
    unfold covers. assert (0 < a_len a); [|lia]. apply LN. unfold znth in S2. destruct ((0 <=? i) && (i <? zlen l)); [|discriminate]. eapply nth_error_In, S2.
  - right. split; [exact S1|]. intros a I C. apply (S2 a I). right. exact C.
Qed.
Print Assumptions C31_lookup.

(* An empty range is returned for its own address although it covers nothing, even when
   another range covers that address. *)
Theorem C31_lookup_empty_refuted : exists l x i a,
  StronglySorted by_addr l /\ getarange_addr 10 l x = Ok (Some i) /\ znth l i = Some a /\ ~ covers a x /\ exists b, In b l /\ covers b x.
Proof.
  exists [AR 100 50 1; AR 120 0 2], 120, 1, (AR 120 0 2).
  split; [apply SSorted_cons; [apply SSorted_cons; [apply SSorted_nil|apply Forall_nil]|apply Forall_cons; [unfold by_addr; cbn; lia|apply Forall_nil]]|].
  split; [vm_compute; reflexivity|]. split; [vm_compute; reflexivity|].
  split; [unfold covers; cbn; lia|]. exists (AR 100 50 1). split; [left; reflexivity|unfold covers; cbn; lia].
Qed.
Print Assumptions C31_lookup_empty_refuted.

(* ------------------------------------------------------------------ *)
(* Examples *)
Fixpoint ins (a : arange) (l : list arange) : list arange :=
  match l with [] => [a] | b :: r => if a_addr a <=? a_addr b then a :: l else b :: ins a r end.
Definition isort (l : list arange) : list arange := fold_right ins [] l.
Lemma isort_sorter : sorter isort.
Proof.
  intros l. induction l as [|a l [IP IS]]; [split; constructor|]. cbn [isort fold_right]. fold (isort l).
  assert (G : forall l, StronglySorted by_addr l -> Permutation (a :: l) (ins a l) /\ StronglySorted by_addr (ins a l)).
  { clear. induction l as [|b l IH]; intros SS; cbn [ins]; [split; [apply Permutation_refl|apply SSorted_cons; [apply SSorted_nil|apply Forall_nil]]|].
    inversion SS as [|b' l' S1 S2]; subst. destruct (Z.leb_spec (a_addr a) (a_addr b)).
    - split; [apply Permutation_refl|]. constructor; [exact SS|]. constructor; [exact H|]. eapply Forall_impl; [|exact S2]. unfold by_addr. intros c. cbn beta. lia.
    - destruct (IH S1) as [P1 P2]. split.
      + eapply Permutation_trans; [apply perm_swap|]. apply perm_skip, P1.
      + constructor; [exact P2|]. eapply Permutation_Forall; [exact P1|]. constructor; [unfold by_addr; lia|exact S2]. }
  destruct (G (isort l) IS) as [P1 P2]. split; [|exact P2]. eapply Permutation_trans; [apply perm_skip, IP|exact P1].
Qed.
Definition ex_sets : list aset :=
  [ASet false 44 0 8 [0; 0; 0; 0] [(200, 16); (100, 50)]; ASet true 28 16 4 [] [(150, 7)]].
Example C31_nonvacuous :
  Forall (fun s => set_ok s /\ (fun o => Ok (o + 11)) (s_unit s) = Ok (s_unit s + 11) /\ s_unit s + 11 < 60 /\ (exists i, Some (repeat 0 60) = Some i /\ s_unit s + 4 <= zlen i)) ex_sets /\
  match getaranges true (concat (map (set_bytes true) ex_sets)) 60 (Some (repeat 0 60)) (fun o => Ok (o + 11)) isort 200 with
  | Ok (n, buf) => map (info_of buf) [0; 1; 2] = [Some (AR 100 50 11); Some (AR 150 7 27); Some (AR 200 16 11)] /\ n = 3
  | _ => False
  end /\
  disjoint [AR 100 50 11; AR 150 7 27; AR 200 16 11] /\
  getarange_addr 4 [AR 100 50 11; AR 150 7 27; AR 200 16 11] 156 = Ok (Some 1) /\
  getarange_addr 4 [AR 100 50 11; AR 150 7 27; AR 200 16 11] 157 = Ok None.
Proof.
  split.
  { repeat constructor; cbn; try lia; try (right; reflexivity); try (left; reflexivity); try discriminate; exists (repeat 0 60); (split; [reflexivity|vm_compute; discriminate]). }
  split; [vm_compute; split; reflexivity|]. split; [|split; vm_compute; reflexivity].
  intros i j a b IJ A B. assert (0 <= i < 3 /\ 0 <= j < 3) as [I J].
  { unfold znth in A, B. change (zlen [AR 100 50 11; AR 150 7 27; AR 200 16 11]) with 3 in *. split.
    - destruct ((0 <=? i) && (i <? 3)) eqn:E; [lia|discriminate].
    - destruct ((0 <=? j) && (j <? 3)) eqn:E; [lia|discriminate]. }
  assert (i = 0 /\ j = 1 \/ i = 0 /\ j = 2 \/ i = 1 /\ j = 2) as [[-> ->]|[[-> ->]|[-> ->]]] by lia; vm_compute in A, B; injection A as <-; injection B as <-; cbn; lia.
Qed.
