(* Proofs about PubModel: the sets found, the names reported, the memory read. *)
From Verif Require Import Base DwModel Slice ArModel Ar2Proof PubModel PubSpec.
Import PubSpec.
From Coq Require Import ZifyBool ZifyNat.

Lemma fval_ones : forall fle b, bytes_ok b -> zlen b = 4 -> (fval fle b =? LENGTH_64_BIT) = (if list_eq_dec Z.eq_dec b [255; 255; 255; 255] then true else false).
Proof.
  intros fle b B L. destruct b as [|x [|y [|z [|w [|v r]]]]]; unfold zlen in L; cbn [length] in L; try lia.
  assert (H : is_u8 x /\ is_u8 y /\ is_u8 z /\ is_u8 w). { unfold bytes_ok in B. repeat (apply Forall_cons_iff in B; destruct B as [? B]). auto. }
  unfold is_u8 in H. unfold LENGTH_64_BIT.
  destruct (list_eq_dec Z.eq_dec [x; y; z; w] [255; 255; 255; 255]) as [E|E].
  - injection E as -> -> -> ->. destruct fle; reflexivity.
  - assert (N : ~ (x = 255 /\ y = 255 /\ z = 255 /\ w = 255)) by (intros (-> & -> & -> & ->); apply E; reflexivity).
    destruct fle; unfold fval, be_value; cbn [rev app le_value]; lia.
Qed.

Lemma width_cases : forall s, width s = 4 \/ width s = 8.
Proof. intros s. unfold width. destruct (n_wide s); auto. Qed.
Lemma zlen_head : forall fle s len, zlen (head fle s len) = first_at s.
Proof.
  intros fle s len. unfold head, first_at. destruct (width_cases s) as [W|W]; destruct (n_wide s); rewrite !zlen_app, ?zlen_app, !zlen_enc by lia; lia.
Qed.
Lemma zlen_set : forall fle s, zlen (set_bytes fle s) = first_at s + zlen (body fle s).
Proof. intros fle s. unfold set_bytes. rewrite zlen_app, zlen_head. reflexivity. Qed.
Lemma zlen_body : forall fle s, width s <= zlen (body fle s).
Proof.
  intros fle s. unfold body. rewrite !zlen_app, zlen_enc by (destruct (width_cases s); lia).
  pose proof (zlen_nonneg _ (concat (map (pair fle (width s)) (n_names s)))). pose proof (zlen_nonneg _ (n_pad s)). lia.
Qed.

Section found.
Variables (fle : bool) (d info : bytes).
Hypothesis (IB : bytes_ok info) (DL : zlen d < two64 / 2).

(* the table for the sets that begin at p *)
Fixpoint psets (p : Z) (l : list nset) : list pset :=
  match l with
  | [] => []
  | s :: l => PS (p + first_at s) (width s) (n_unit s) (unit_header info (n_unit s)) :: psets (p + zlen (set_bytes fle s)) l
  end.

Lemma offs_exact : forall l p k acc tail, Forall (set_ok fle info) l -> zlen tail <= 14 -> at_ d p (section fle l tail) -> p + zlen (section fle l tail) = zlen d ->
  (Z.to_nat (zlen d - p) < k)%nat -> offs_loop k fle d (Some info) p acc = Ok (rev (psets p l) ++ acc).
Proof using IB DL.
  induction l as [|s l IH]; intros p k acc tail OK T AT END K.
  - unfold section in *. cbn [map concat app] in *. destruct k as [|k]; [lia|]. cbn [offs_loop]. replace (p + 14 <? zlen d) with false by lia. reflexivity.
  - apply Forall_cons_iff in OK. destruct OK as [(UB0 & UI & NM & LN) OK].
    unfold section in AT, END. cbn [map concat] in AT, END. rewrite <- app_assoc in AT, END. fold (section fle l tail) in AT, END.
    pose proof (zlen_body fle s) as LB. pose proof (zlen_nonneg _ (section fle l tail)) as LR. pose proof (width_cases s) as WC.
    pose proof (proj1 (at_bound _ _ _ AT)) as P0.
    pose proof (at_app2 _ _ _ _ AT) as ATR. pose proof (at_app1 _ _ _ _ AT) as ATS. rewrite zlen_app, zlen_set in END.
    destruct k as [|k]; [lia|]. cbn [offs_loop psets]. 
    assert (FA : first_at s = (if n_wide s then 12 else 4) + 2 + 2 * width s) by reflexivity.
    replace (p + 14 <? zlen d) with true by (destruct (n_wide s); lia). cbn [negb].
    set (len := 2 + 2 * width s + zlen (body fle s)) in *.
    unfold set_bytes in ATS. fold len in ATS. apply at_app1 in ATS. unfold head in ATS.
    set (q := if n_wide s then p + 12 else p + 4).
    assert (ATV : at_ d q (enc fle 2 2 ++ enc fle (width s) (n_unit s) ++ enc fle (width s) (n_size s))).
    { unfold q. destruct (n_wide s); apply at_app2 in ATS; rewrite ?zlen_app, !zlen_enc in ATS by lia; [replace (p + 12) with (p + (4 + 8)) by lia|]; exact ATS. }
    apply at_app1 in ATS.
    assert (RV : rd fle d q 2 = Ok 2) by (apply rd_at; [lia|lia|eapply at_app1; exact ATV]).
    assert (RU : rd fle d (q + 2) (width s) = Ok (n_unit s)).
    { apply rd_at; [lia|exact UB0|]. apply at_app2 in ATV. rewrite zlen_enc in ATV by lia. eapply at_app1. exact ATV. }
    assert (RO : read_offset fle d (q + 2) (width s) (Some info) 3 = Ok (n_unit s)).
    { unfold read_offset, read_address, in_section. apply at_app2 in ATV. apply at_bound in ATV. rewrite zlen_app, !zlen_enc in ATV by lia.
      replace (negb ((q + 2 <? 0) || (zlen d <? width s) || (zlen d - width s <? q + 2))) with true by lia.
      replace (if width s =? 4 then 4 else 8) with (width s) by (destruct WC as [-> | ->]; reflexivity). rewrite RU. cbn [obind].
      unfold offset_in_section. replace ((zlen info <? n_unit s) || (zlen info <? 3) || (zlen info - 3 <? n_unit s)) with false by lia. reflexivity. }
    assert (RH : rd fle info (n_unit s) 4 = Ok (fval fle (zsub info (n_unit s) 4))) by (apply rd_in; lia).
    pose proof (fval_ones fle (zsub info (n_unit s) 4) (bytes_ok_part _ _ _ IB) ltac:(apply zsub_length; lia)) as FO.
    assert (GO : offs_loop k fle d (Some info) (q + len) (PS (p + first_at s) (width s) (n_unit s) (unit_header info (n_unit s)) :: acc)
                 = Ok (rev (PS (p + first_at s) (width s) (n_unit s) (unit_header info (n_unit s)) :: psets (p + zlen (set_bytes fle s)) l) ++ acc)).
    { cbn [rev]. rewrite <- app_assoc. cbn [app]. replace (q + len) with (p + zlen (set_bytes fle s)) by (rewrite zlen_set; unfold q, len; destruct (n_wide s); lia).
      apply (IH _ _ _ tail OK T ATR); rewrite ?zlen_set; [|destruct (n_wide s)]; lia. }
    assert (UH : (if fval fle (zsub info (n_unit s) 4) =? LENGTH_64_BIT then 23 else 11) = unit_header info (n_unit s)) by (rewrite FO; unfold unit_header; destruct (list_eq_dec Z.eq_dec (zsub info (n_unit s) 4) [255; 255; 255; 255]); reflexivity).
    assert (U : u64 (len - (2 + 2 * width s)) = zlen (body fle s)) by (unfold u64, len; rewrite Z.mod_small; [lia|destruct (n_wide s); lia]).
    destruct (n_wide s) eqn:NW; cbn [negb andb].
    + assert (W : width s = 8) by (unfold width; rewrite NW; reflexivity).
      rewrite (rd_at fle d p 4 (two32 - 1)) by (try lia; eapply at_app1; exact ATS). cbn [obind].
      replace (two32 - 1 =? LENGTH_64_BIT) with true by reflexivity.
      rewrite (rd_at fle d (p + 4) 8 len) by (try lia; apply at_app2 in ATS; rewrite zlen_enc in ATS by lia; exact ATS). cbn [obind].
      cbn [negb andb]. replace (p + 12 + 2 + 2 * 8) with (p + first_at s) by lia. rewrite W in RO, U, GO |- *. rewrite U.
      replace ((zlen d <=? p + first_at s) || (zlen d - (p + first_at s) <? zlen (body fle s))) with false by lia.
      unfold q in RV, RO. rewrite RV. cbn [obind]. replace (2 =? 2) with true by reflexivity. cbn [negb]. rewrite RO. cbn [obind]. rewrite RH. cbn [obind]. rewrite UH. exact GO.
    + assert (W : width s = 4) by (unfold width; rewrite NW; reflexivity).
      rewrite (rd_at fle d p 4 len) by (try lia; exact ATS). cbn [obind].
      assert (len < LENGTH_MIN_ESCAPE) by (unfold LENGTH_MIN_ESCAPE; lia).
      replace (len =? LENGTH_64_BIT) with false by (unfold LENGTH_64_BIT, LENGTH_MIN_ESCAPE in *; lia). cbn [obind negb andb].
      replace (LENGTH_MIN_ESCAPE <=? len) with false by lia. cbn [andb].
      replace (p + 4 + 2 + 2 * 4) with (p + first_at s) by lia. rewrite W in RO, U, GO |- *. rewrite U.
      replace ((zlen d <=? p + first_at s) || (zlen d - (p + first_at s) <? zlen (body fle s))) with false by lia.
      unfold q in RV, RO. rewrite RV. cbn [obind]. replace (2 =? 2) with true by reflexivity. cbn [negb]. rewrite RO. cbn [obind]. rewrite RH. cbn [obind]. rewrite UH. 
      replace (p + 4 + len) with (q + len) by (unfold q; lia). exact GO.
Qed.
End found.

Definition as_glob (n : named) : glob := GL (nm_cu n) (nm_die n) (nm_name n).
Definition outcome_of {A} (r : A * option Z) : outcome (A * ret) := Ok (fst r, match snd r with None => Done | Some e => Stopped e end).

Section report.
Context {A : Type} (cb : A -> glob -> A * Z) (fle : bool) (d info : bytes).
Hypothesis (IB : bytes_ok info) (IL : zlen info + 23 < two64).
Let cb' (a : A) (n : named) := cb a (as_glob n).

Definition rest_names (s : nset) (p : Z) (names : list (Z * bytes)) : list named :=
  names_at (width s) (n_unit s + unit_header info (n_unit s)) (n_unit s) p names.
Lemma names_len : forall w cu u l p, length (names_at w cu u p l) = length l.
Proof. induction l as [|[o n] l IH]; intros p; cbn [names_at length]; [reflexivity|]. rewrite IH. reflexivity. Qed.

Lemma index_at : forall p n rest, Forall (fun c => c <> 0) n -> at_ d p (n ++ 0 :: rest) -> index_of 0 (skipn (Z.to_nat p) d) = Some (length n) /\ zsub d p (Z.of_nat (length n)) = n.
Proof using.
  clear. intros p n rest F AT. pose proof AT as AT2. apply at_app1 in AT2. destruct AT2 as (P & L & E). split; [|exact E].
  apply at_split in AT as (pre & post & -> & <-). unfold zlen. rewrite Nat2Z.id, skipn_app, skipn_all, Nat.sub_diag. cbn [skipn app]. apply index_of_app. exact F.
Qed.

Lemma pub_exact : forall l s p names a k P tail, Forall (set_ok fle info) (s :: l) -> 
  Forall (fun e => 0 < fst e < 256 ^ width s /\ n_unit s + fst e < two64 /\ cstr_ok (snd e)) names ->
  at_ d p (concat (map (pair fle (width s)) names) ++ enc fle (width s) 0) -> 0 <= P -> at_ d P (section fle l tail) ->
  (Z.to_nat (1 + (zlen d - p) + zlen l * (2 + zlen d)) <= k)%nat ->
  pub_loop cb fle d k (PS (P - zlen (set_bytes fle s) + first_at s) (width s) (n_unit s) (unit_header info (n_unit s)) :: psets fle info P l) p a =
  outcome_of (visit cb' a (rest_names s p names ++ all_names fle info P l)).
Proof using IB IL.
  induction l as [|t l IHl]; intros s p names; revert p; (induction names as [|[o n] names IHn]; intros p a k P tail OK NM AT P0 ATR K).
  - cbn [map concat app] in AT. destruct (at_bound _ _ _ AT) as [Q0 QB]. pose proof (width_cases s) as WC. rewrite zlen_enc in QB by lia.
    change (zlen (@nil nset)) with 0 in K. destruct k as [|k]; [lia|]. cbn [pub_loop ps_alen]. replace (zlen d <? p + width s) with false by lia.
    rewrite (rd_at fle d p (width s) 0) by (try exact AT; destruct WC as [-> | ->]; lia). reflexivity.
  - apply Forall_cons_iff in NM. destruct NM as [(OB & OU & NZ) NM]. cbn [fst snd] in OB, OU, NZ.
    cbn [map concat] in AT. rewrite <- !app_assoc in AT. unfold pair at 1 in AT. cbn [fst snd] in AT. rewrite <- !app_assoc in AT.
    pose proof (width_cases s) as WC. pose proof (zlen_nonneg _ n) as LN.
    pose proof (at_app1 _ _ _ _ AT) as ATO. apply at_app2 in AT. rewrite zlen_enc in AT by lia. cbn [app] in AT.
    destruct (index_at _ _ _ NZ AT) as [IX ZS]. 
    assert (ATN : at_ d (p + width s + zlen n + 1) (concat (map (pair fle (width s)) names) ++ enc fle (width s) 0)).
    { replace (n ++ 0 :: concat (map (pair fle (width s)) names) ++ enc fle (width s) 0) with ((n ++ [0]) ++ concat (map (pair fle (width s)) names) ++ enc fle (width s) 0) in AT by (rewrite <- app_assoc; reflexivity).
      apply at_app2 in AT. rewrite zlen_app in AT. change (zlen [0]) with 1 in AT. replace (p + width s + zlen n + 1) with (p + width s + (zlen n + 1)) by lia. exact AT. }
    destruct (at_bound _ _ _ ATN) as [Q0 QB]. pose proof (zlen_nonneg _ (concat (map (pair fle (width s)) names) ++ enc fle (width s) 0)) as CL.
    change (zlen (@nil nset)) with 0 in K. destruct k as [|k]; [lia|]. cbn [pub_loop ps_alen]. replace (zlen d <? p + width s) with false by lia.
    rewrite (rd_at fle d p (width s) o) by (try exact ATO; lia). cbn [obind]. replace (o =? 0) with false by lia. rewrite IX. cbn [ps_cu ps_hdr]. rewrite ZS.
    apply Forall_cons_iff in OK as OK'. destruct OK' as [(U0 & UI & _ & _) _].
    assert (HD : unit_header info (n_unit s) = 23 \/ unit_header info (n_unit s) = 11) by (unfold unit_header; destruct (list_eq_dec _ _ _); auto).
    unfold u64. rewrite (Z.mod_small (n_unit s + unit_header info (n_unit s))), (Z.mod_small (o + n_unit s)) by lia.
    unfold rest_names. cbn [names_at app visit]. unfold cb' at 1, as_glob. cbn [nm_cu nm_die nm_name]. replace (o + n_unit s) with (n_unit s + o) by lia.
    destruct (cb a _) as [a' code]. fold (zlen n). cbn [nm_end].
    destruct (code =? 0); [|reflexivity]. apply (IHn _ _ _ _ tail OK NM ATN P0 ATR). change (zlen (@nil nset)) with 0. lia.
  - cbn [map concat app] in AT. destruct (at_bound _ _ _ AT) as [Q0 QB]. pose proof (width_cases s) as WC. rewrite zlen_enc in QB by lia.
    rewrite zlen_cons in K. pose proof (zlen_nonneg _ l). pose proof (zlen_nonneg _ d). destruct k as [|k]; [nia|]. cbn [pub_loop ps_alen]. replace (zlen d <? p + width s) with false by lia.
    rewrite (rd_at fle d p (width s) 0) by (try exact AT; destruct WC as [-> | ->]; lia). cbn [obind]. replace (0 =? 0) with true by reflexivity.
    cbn [psets ps_start]. unfold section in ATR. cbn [map concat] in ATR. rewrite <- app_assoc in ATR. fold (section fle l tail) in ATR.
    pose proof (at_app2 _ _ _ _ ATR) as AT2. apply at_app1 in ATR. unfold set_bytes in ATR. apply at_app2 in ATR. rewrite zlen_head in ATR. unfold body in ATR. rewrite app_assoc in ATR. apply at_app1 in ATR.
    destruct (at_bound _ _ _ AT2). pose proof (zlen_nonneg _ (section fle l tail)).
    apply Forall_cons_iff in OK. destruct OK as [_ OK]. apply Forall_cons_iff in OK as OK'. destruct OK' as [(_ & _ & NT & _) _].
    assert (FAT : 0 <= first_at t) by (unfold first_at; destruct (width_cases t); destruct (n_wide t); lia).
    pose proof (zlen_nonneg _ (set_bytes fle t)) as ZT.
    specialize (IHl t (P + first_at t) (n_names t) a k (P + zlen (set_bytes fle t)) tail OK NT ATR ltac:(lia) AT2).
    replace (P + zlen (set_bytes fle t) - zlen (set_bytes fle t) + first_at t) with (P + first_at t) in IHl by lia. rewrite IHl; [reflexivity|].
    replace ((1 + zlen l) * (2 + zlen d)) with (zlen l * (2 + zlen d) + (2 + zlen d)) in K by lia. 
    set (zz := zlen l * (2 + zlen d)) in *. clearbody zz. lia.
  - apply Forall_cons_iff in NM. destruct NM as [(OB & OU & NZ) NM]. cbn [fst snd] in OB, OU, NZ.
    cbn [map concat] in AT. rewrite <- !app_assoc in AT. unfold pair at 1 in AT. cbn [fst snd] in AT. rewrite <- !app_assoc in AT.
    pose proof (width_cases s) as WC. pose proof (zlen_nonneg _ n) as LN.
    pose proof (at_app1 _ _ _ _ AT) as ATO. apply at_app2 in AT. rewrite zlen_enc in AT by lia. cbn [app] in AT.
    destruct (index_at _ _ _ NZ AT) as [IX ZS]. 
    assert (ATN : at_ d (p + width s + zlen n + 1) (concat (map (pair fle (width s)) names) ++ enc fle (width s) 0)).
    { replace (n ++ 0 :: concat (map (pair fle (width s)) names) ++ enc fle (width s) 0) with ((n ++ [0]) ++ concat (map (pair fle (width s)) names) ++ enc fle (width s) 0) in AT by (rewrite <- app_assoc; reflexivity).
      apply at_app2 in AT. rewrite zlen_app in AT. change (zlen [0]) with 1 in AT. replace (p + width s + zlen n + 1) with (p + width s + (zlen n + 1)) by lia. exact AT. }
    destruct (at_bound _ _ _ ATN) as [Q0 QB]. pose proof (zlen_nonneg _ (concat (map (pair fle (width s)) names) ++ enc fle (width s) 0)) as CL.
    pose proof (zlen_nonneg _ (t :: l)). pose proof (zlen_nonneg _ d). assert (0 <= zlen (t :: l) * (2 + zlen d)) by (apply Z.mul_nonneg_nonneg; lia).
    set (zz := zlen (t :: l) * (2 + zlen d)) in *.
    destruct k as [|k]; [lia|]. cbn [pub_loop ps_alen]. replace (zlen d <? p + width s) with false by lia.
    rewrite (rd_at fle d p (width s) o) by (try exact ATO; lia). cbn [obind]. replace (o =? 0) with false by lia. rewrite IX. cbn [ps_cu ps_hdr]. rewrite ZS.
    apply Forall_cons_iff in OK as OK'. destruct OK' as [(U0 & UI & _ & _) _].
    assert (HD : unit_header info (n_unit s) = 23 \/ unit_header info (n_unit s) = 11) by (unfold unit_header; destruct (list_eq_dec _ _ _); auto).
    unfold u64. rewrite (Z.mod_small (n_unit s + unit_header info (n_unit s))), (Z.mod_small (o + n_unit s)) by lia.
    unfold rest_names. cbn [names_at app visit]. unfold cb' at 1, as_glob. cbn [nm_cu nm_die nm_name]. replace (o + n_unit s) with (n_unit s + o) by lia.
    destruct (cb a _) as [a' code]. fold (zlen n). cbn [nm_end].
    destruct (code =? 0); [|reflexivity]. apply (IHn _ _ _ _ tail OK NM ATN P0 ATR). fold zz. lia.
Qed.
End report.
