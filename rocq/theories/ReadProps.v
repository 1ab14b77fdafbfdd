(* C49: the readers of attribute values return what the value encodes. *)
From Verif Require Import Base LebModel LebSpec LebProof DwModel Slice CfiSpec CfiProof FormModel FormSpec FormProps.

(* the attribute a of unit u has the value v, whose bytes lie in the unit *)
Definition has_value (u : cu) (a : attr) (v : value) (b : bytes) : Prop :=
  sizes_ok u /\ u_endp u <= zlen (u_mem u) /\ zlen (u_mem u) < two63 /\ holds (params_of u) (a_form a) v b /\ at_ (u_mem u) (a_valp a) b /\ a_valp a + zlen b <= u_endp u.
(* b as a two's complement number of n bytes *)
Definition as_signed (n v : Z) : Z := if v <? 2 ^ (8 * n - 1) then v else v - 2 ^ (8 * n).

Lemma fixed_inv : forall m form v b w, holds m form v b -> In (form, w) (fixed_width m) -> 
  exists n w', v = Unsigned n /\ In (form, w') (fixed_width m) /\ 0 <= n < 256 ^ w' /\ b = enc (p_le m) w' n.
Proof.
  intros m form v b w H I. destruct H as [form w' n W V|b L|form n b K U|n b S0| | |b L|b L|b L|form b x F U|s F|form v x b U FB FN H];
    try solve [exfalso; cbn in I; repeat (destruct I as [I|I]; [discriminate I|]); destruct I].
  - exists n, w'. split; [reflexivity|]. split; [exact W|]. split; [exact V|reflexivity].
  - exfalso. cbn in K. repeat (destruct K as [<- | K]; [cbn in I; repeat (destruct I as [I|I]; [discriminate I|]); destruct I|]). destruct K.
  - exfalso. destruct F as [-> | ->]; cbn in I; repeat (destruct I as [I|I]; [discriminate I|]); destruct I.
Qed.
(* the width of a form is unique *)
Lemma fixed_unique : forall m form w w', In (form, w) (fixed_width m) -> In (form, w') (fixed_width m) -> w = w'.
Proof.
  intros m form w w' H H'. cbn in H.
  repeat (destruct H as [H|H]; [injection H as <- <-; cbn in H'; repeat (destruct H' as [H'|H']; [try discriminate H'; injection H' as <-; reflexivity|]); destruct H'|]).
  destruct H.
Qed.
Lemma fixed_read : forall u a v b w, has_value u a v b -> In (a_form a, w) (fixed_width (params_of u)) ->
  exists n, v = Unsigned n /\ 0 <= n < 256 ^ w /\ rd (u_fle u) (u_mem u) (a_valp a) w = Ok n /\ 0 <= a_valp a /\ a_valp a + w <= u_endp u.
Proof.
  intros u a v b w (SZ & E & M & H & A & L) I. destruct (fixed_inv _ _ _ _ _ H I) as (n & w' & -> & I' & N & ->).
  rewrite (fixed_unique _ _ _ _ I' I) in *. pose proof (fixed_pos u _ _ SZ I). exists n. split; [reflexivity|]. split; [exact N|].
  rewrite zlen_enc in L by lia. split; [apply rd_at; [lia|exact N|exact A]|]. split; [apply A|exact L].
Qed.
Lemma uleb_inv : forall m form v b, holds m form v b -> is_uleb form -> exists n, v = Unsigned n /\ uleb_of n b.
Proof.
  intros m form v b H K. destruct H as [form w' n W V|b L|form n b K' U|n b S0| | |b L|b L|b L|form b x F U|s F|form v x b U FB FN H];
    try solve [exfalso; cbn in K; repeat (destruct K as [K|K]; [discriminate K|]); destruct K].
  - exfalso. cbn in K. repeat (destruct K as [<- | K]; [cbn in W; repeat (destruct W as [W|W]; [discriminate W|]); destruct W|]). destruct K.
  - exists n. split; [reflexivity|exact U].
  - exfalso. destruct F as [-> | ->]; cbn in K; repeat (destruct K as [K|K]; [discriminate K|]); destruct K.
Qed.
Lemma uleb_read : forall u a v b, has_value u a v b -> is_uleb (a_form a) ->
  exists n, v = Unsigned n /\ get_uleb128 (u_mem u) (a_valp a) (u_endp u) = Ok (n, a_valp a + zlen b) /\ a_valp a < u_endp u /\ 0 <= n < two64.
Proof.
  intros u a v b (SZ & E & M & H & A & L) K. destruct (uleb_inv _ _ _ _ H K) as (n & -> & U). exists n. split; [reflexivity|].
  split; [apply uleb_at; assumption|]. pose proof (uleb_len _ _ U). split; [lia|exact (uleb_of_nonneg _ _ U)].
Qed.
Lemma sdata_inv : forall m v b, holds m 13 v b -> exists n, v = Signed n /\ sleb_of n b.
Proof.
  intros m v b H. remember 13 as form eqn:FF. destruct H as [form w' n W V|b L|form n b K' U|n b S0| | |b L|b L|b L|form b x F U|s F|form v x b U FB FN H]; try discriminate.
  - subst form. cbn in W. repeat (destruct W as [W|W]; [discriminate W|]); destruct W.
  - subst form. cbn in K'. repeat (destruct K' as [K'|K']; [discriminate K'|]); destruct K'.
  - exists n. split; [reflexivity|exact S0].
  - exfalso. destruct F as [F|F]; lia.
Qed.
Ltac form_is H := repeat (destruct H as [H|H]; [|]); try destruct H.

(* Constants: dwarf_formudata, dwarf_formsdata. *)
Theorem C49_udata : forall u a v b, has_value u a v b -> In (a_form a) [11; 5; 6; 7; 15; 34; 35] ->
  exists n, v = Unsigned n /\ formudata u a true = Ok n.
Proof.
  intros u a v b H F. pose proof H as (SZ & E & M & _ & AT & L). 
  assert (FX : forall w, In (a_form a, w) (fixed_width (params_of u)) -> 
    exists n, v = Unsigned n /\ rd (u_fle u) (u_mem u) (a_valp a) w = Ok n /\ in_unit u (a_valp a) w = true /\
      (w = 4 \/ w = 8 -> read_address (u_fle u) (u_mem u) (a_valp a) w = Ok n)).
  { intros w I. destruct (fixed_read _ _ _ _ _ H I) as (n & -> & N & R & P & W). exists n. split; [reflexivity|]. split; [exact R|].
    split; [unfold in_unit; lia|]. intros C. unfold read_address, in_section. pose proof (fixed_pos u _ _ SZ I).
    replace (negb ((a_valp a <? 0) || (zlen (u_mem u) <? w) || (zlen (u_mem u) - w <? a_valp a))) with true by lia.
    destruct C as [-> | ->]; exact R. }
  assert (UL : is_uleb (a_form a) -> exists n, v = Unsigned n /\ get_uleb128 (u_mem u) (a_valp a) (u_endp u) = Ok (n, a_valp a + zlen b) /\ in_unit u (a_valp a) 1 = true).
  { intros K. destruct (uleb_read _ _ _ _ H K) as (n & -> & G & W & _). exists n. split; [reflexivity|]. split; [exact G|unfold in_unit; lia]. }
  unfold formudata. cbn in F.
  destruct F as [F|[F|[F|[F|[F|[F|[F|[]]]]]]]]; rewrite <- F in *; cbn [Z.eqb Pos.eqb orb].
  - destruct (FX 1 ltac:(cbn; tauto)) as (n & -> & R & I & _). exists n. split; [reflexivity|]. cbn. rewrite I. exact R.
  - destruct (FX 2 ltac:(cbn; tauto)) as (n & -> & R & I & _). exists n. split; [reflexivity|]. cbn. rewrite I. exact R.
  - destruct (FX 4 ltac:(cbn; tauto)) as (n & -> & _ & _ & R). exists n. split; [reflexivity|]. cbn. apply R. lia.
  - destruct (FX 8 ltac:(cbn; tauto)) as (n & -> & _ & _ & R). exists n. split; [reflexivity|]. cbn. apply R. lia.
  - destruct (UL ltac:(cbn; tauto)) as (n & -> & R & I). exists n. split; [reflexivity|]. cbn. rewrite I, R. reflexivity.
  - destruct (UL ltac:(cbn; tauto)) as (n & -> & R & I). exists n. split; [reflexivity|]. cbn. rewrite I, R. reflexivity.
  - destruct (UL ltac:(cbn; tauto)) as (n & -> & R & I). exists n. split; [reflexivity|]. cbn. rewrite I, R. reflexivity.
Qed.
Print Assumptions C49_udata.
Lemma as_signed_ok : forall k v, 0 < k -> 0 <= v < 2 ^ (8 * k) -> (v + 2 ^ (8 * k - 1)) mod 2 ^ (8 * k) - 2 ^ (8 * k - 1) = as_signed k v.
Proof.
  intros k v K V. unfold as_signed. assert (2 ^ (8 * k) = 2 * 2 ^ (8 * k - 1)) as D by (rewrite <- Z.pow_succ_r by lia; f_equal; lia).
  destruct (v <? 2 ^ (8 * k - 1)) eqn:L.
  - rewrite Z.mod_small by lia. lia.
  - rewrite <- (Z_mod_plus_full _ (-1)). rewrite Z.mod_small by lia. lia.
Qed.
Theorem C49_sdata : forall u a v b, has_value u a v b ->
  match v with
  | Unsigned n => (a_form a = 11 -> formsdata u a = Ok (as_signed 1 n)) /\ (a_form a = 5 -> formsdata u a = Ok (as_signed 2 n)) /\
                  (a_form a = 6 -> formsdata u a = Ok (as_signed 4 n)) /\ (a_form a = 7 -> formsdata u a = Ok (as_signed 8 n)) /\
                  (a_form a = 15 -> formsdata u a = Ok (as_signed 8 n))
  | Signed n => a_form a = 13 -> formsdata u a = Ok n /\ formudata u a true = Ok (n mod two64)
  | _ => True
  end.
Proof.
  intros u a v b H. pose proof H as (SZ & E & M & HH & AT & L). 
  assert (FX : forall w n, v = Unsigned n -> In (a_form a, w) (fixed_width (params_of u)) -> 
    0 <= n < 256 ^ w /\ rd (u_fle u) (u_mem u) (a_valp a) w = Ok n /\ in_unit u (a_valp a) w = true).
  { intros w n V I. destruct (fixed_read _ _ _ _ _ H I) as (n' & V' & N & R & P & W). rewrite V in V'. injection V' as <-. split; [exact N|]. split; [exact R|]. unfold in_unit. lia. }
  destruct v as [n|n|d|s|]; try exact Logic.I.
  - split; [intros F|split; [intros F|split; [intros F|split; intros F]]].
    + destruct (FX 1 n eq_refl) as (N & R & I); [rewrite F; cbn; tauto|]. unfold formsdata. rewrite F. cbn. rewrite I, R. cbn [obind]. f_equal. exact (as_signed_ok 1 n ltac:(lia) N).
    + destruct (FX 2 n eq_refl) as (N & R & I); [rewrite F; cbn; tauto|]. unfold formsdata. rewrite F. cbn. rewrite I, R. cbn [obind]. f_equal. exact (as_signed_ok 2 n ltac:(lia) N).
    + destruct (FX 4 n eq_refl) as (N & R & I); [rewrite F; cbn; tauto|]. unfold formsdata. rewrite F. cbn. rewrite I, R. cbn [obind]. f_equal. exact (as_signed_ok 4 n ltac:(lia) N).
    + destruct (FX 8 n eq_refl) as (N & R & I); [rewrite F; cbn; tauto|]. unfold formsdata. rewrite F. cbn. rewrite I, R. cbn [obind]. f_equal. exact (as_signed_ok 8 n ltac:(lia) N).
    + destruct (uleb_read _ _ _ _ H) as (n' & V' & G & W & N); [rewrite F; cbn; tauto|]. injection V' as <-. unfold formsdata. rewrite F. cbn. unfold in_unit.
      replace (negb (u_endp u <? a_valp a + 1)) with true by lia. rewrite G. cbn [obind]. f_equal. exact (as_signed_ok 8 n ltac:(lia) N).
  - intros F. rewrite F in HH. apply sdata_inv in HH as (n' & V' & S0). injection V' as <-. pose proof (sleb_len _ _ S0) as SL.
    assert (G : get_sleb128 (u_mem u) (a_valp a) (u_endp u) = Ok (n, a_valp a + zlen b)) by (apply sleb_at; assumption).
    unfold formsdata, formudata. rewrite F. cbn. unfold in_unit. replace (negb (u_endp u <? a_valp a + 1)) with true by lia. rewrite G. split; reflexivity.
Qed.
Print Assumptions C49_sdata.

(* References inside the unit: dwarf_formref. *)
Theorem C49_ref : forall u a v b, has_value u a v b -> In (a_form a) [17; 18; 19; 20; 21] ->
  exists n, v = Unsigned n /\ formref u a = Ok n.
Proof.
  intros u a v b H F.
  assert (FX : forall w, In (a_form a, w) (fixed_width (params_of u)) -> 
    exists n, v = Unsigned n /\ rd (u_fle u) (u_mem u) (a_valp a) w = Ok n /\ in_unit u (a_valp a) w = true).
  { intros w I. destruct (fixed_read _ _ _ _ _ H I) as (n & -> & N & R & P & W). exists n. split; [reflexivity|]. split; [exact R|]. unfold in_unit. lia. }
  unfold formref. cbn in F. destruct F as [F|[F|[F|[F|[F|[]]]]]]; rewrite <- F in *; cbn.
  - destruct (FX 1 ltac:(cbn; tauto)) as (n & -> & R & I). exists n. split; [reflexivity|]. rewrite I. exact R.
  - destruct (FX 2 ltac:(cbn; tauto)) as (n & -> & R & I). exists n. split; [reflexivity|]. rewrite I. exact R.
  - destruct (FX 4 ltac:(cbn; tauto)) as (n & -> & R & I). exists n. split; [reflexivity|]. rewrite I. exact R.
  - destruct (FX 8 ltac:(cbn; tauto)) as (n & -> & R & I). exists n. split; [reflexivity|]. rewrite I. exact R.
  - destruct (uleb_read _ _ _ _ H) as (n & -> & G & W & N); [rewrite <- F; cbn; tauto|]. exists n. split; [reflexivity|]. unfold in_unit.
    replace (negb (u_endp u <? a_valp a + 1)) with true by lia. rewrite G. reflexivity.
Qed.
Print Assumptions C49_ref.

(* Blocks: the bytes found at the returned place are the block. *)
Theorem C49_block : forall u a d b, has_value u a (Bytes d) b -> a_form a <> FORM_indirect ->
  exists p, formblock u a = Ok (p, zlen d) /\ at_ (u_mem u) p d /\ p + zlen d <= u_endp u.
Proof.
  intros u a d b (SZ & E & M & H & A & L) NI. unfold formblock. remember (Bytes d) as v eqn:VV. remember (a_form a) as f eqn:FF.
  pose proof (zlen_nonneg _ d) as D0. pose proof (at_bound _ _ _ A) as [P _].
  assert (FIX : forall w, 1 <= w <= 4 -> 0 <= zlen d < 256 ^ w -> b = enc (u_fle u) w (zlen d) ++ d ->
    (if u_endp u - a_valp a <? w then Err DWARF_E_INVALID_DWARF else v <- rd (u_fle u) (u_mem u) (a_valp a) w;;
       (if u64 (u_endp u - (a_valp a + w)) <? v then Err DWARF_E_INVALID_DWARF else Ok (a_valp a + w, v))) = Ok (a_valp a + w, zlen d) /\
    at_ (u_mem u) (a_valp a + w) d /\ a_valp a + w + zlen d <= u_endp u).
  { intros w W V ->. rewrite zlen_app, zlen_enc in L by lia. replace (u_endp u - a_valp a <? w) with false by lia.
    rewrite (rd_at _ _ _ w (zlen d) ltac:(lia) V (at_app1 _ _ _ _ A)). cbn [obind]. rewrite left_eq by lia.
    replace (u_endp u - (a_valp a + w) <? zlen d) with false by lia. split; [reflexivity|].
    pose proof (at_app2 _ _ _ _ A) as A2. rewrite zlen_enc in A2 by lia. split; [exact A2|lia]. }
  destruct H as [form w' n W V|b L16|form n b K' U|n b S0| | |b LB|b LB|b LB|form b x F U|s F|form v x b U FB FN H]; try discriminate.
  - injection VV as <-. cbn. replace (u_endp u - a_valp a <? 16) with false by lia. rewrite left_eq by lia. replace (u_endp u - a_valp a <? 16) with false by lia.
    exists (a_valp a). rewrite L16. split; [reflexivity|]. split; [exact A|lia].
  - injection VV as <-. eexists. cbn. apply (FIX 1 ltac:(lia)); [split; [exact D0|exact LB]|reflexivity].
  - injection VV as <-. eexists. cbn. apply (FIX 2 ltac:(lia)); [split; [exact D0|exact LB]|reflexivity].
  - injection VV as <-. eexists. cbn. apply (FIX 4 ltac:(lia)); [split; [exact D0|exact LB]|reflexivity].
  - injection VV as <-. rewrite zlen_app in L. pose proof (uleb_len _ _ U) as UL.
    pose proof (uleb_at _ _ (u_endp u) _ _ U (at_app1 _ _ _ _ A) ltac:(lia)) as G. exists (a_valp a + zlen x).
    assert (RES : (if u_endp u - a_valp a <? 1 then Err DWARF_E_INVALID_DWARF else ' (v, q) <- get_uleb128 (u_mem u) (a_valp a) (u_endp u);;
      (if u64 (u_endp u - q) <? v then Err DWARF_E_INVALID_DWARF else Ok (q, v))) = Ok (a_valp a + zlen x, zlen b)).
    { replace (u_endp u - a_valp a <? 1) with false by lia. rewrite G. cbn [obind]. rewrite left_eq by lia.
      replace (u_endp u - (a_valp a + zlen x) <? zlen b) with false by lia. reflexivity. }
    split; [destruct F as [-> | ->]; exact RES|]. split; [exact (at_app2 _ _ _ _ A)|lia].
  - destruct (NI eq_refl).
Qed.
Print Assumptions C49_block.

(* Flags. *)
Theorem C49_flag : forall u a v b, has_value u a v b -> 
  (a_form a = FORM_flag -> exists n, v = Unsigned n /\ formflag u a = Ok (negb (n =? 0))) /\
  (a_form a = FORM_flag_present -> formflag u a = Ok true).
Proof.
  intros u a v b H. split; intros F; unfold formflag; rewrite F; [|reflexivity].
  destruct (fixed_read u a v b 1 H) as (n & -> & _ & R & _); [rewrite F; cbn; tauto|]. exists n. split; [reflexivity|]. cbn. rewrite R. reflexivity.
Qed.
Print Assumptions C49_flag.

(* Index forms; the fixed-width ones must not be the last value of the unit. *)
Definition index_forms : list Z := [27; 7937; 41; 42; 43; 44].
Lemma index_ok : forall u a v b, has_value u a v b -> 
  (is_uleb (a_form a) -> exists n, v = Unsigned n /\ 0 <= n < two64 /\ index_value u (a_valp a) true 0 = Ok n) /\
  (forall w, w <= 4 -> In (a_form a, w) (fixed_width (params_of u)) -> a_valp a + zlen b < u_endp u ->
     exists n, v = Unsigned n /\ 0 <= n < two32 /\ index_value u (a_valp a) false w = Ok n).
Proof.
  intros u a v b H. split.
  - intros K. destruct (uleb_read _ _ _ _ H K) as (n & -> & G & W & N). exists n. split; [reflexivity|]. split; [exact N|]. unfold index_value.
    replace (u_endp u <=? a_valp a) with false by lia. rewrite G. reflexivity.
  - intros w WL I LT. pose proof H as (SZ & E & M & HH & A & L). destruct (fixed_inv _ _ _ _ _ HH I) as (n & w' & -> & I' & N & EB).
    rewrite (fixed_unique _ _ _ _ I' I) in *. pose proof (fixed_pos u _ _ SZ I). rewrite EB, zlen_enc in LT by lia.
    exists n. split; [reflexivity|]. split.
    { pose proof (Z.pow_le_mono_r 256 w 4 ltac:(lia) ltac:(lia)). change (256 ^ 4) with two32 in *. lia. }
    unfold index_value, before_end. replace (negb (u_endp u - w <=? a_valp a)) with true by lia. rewrite EB in A. apply rd_at; [lia|exact N|exact A].
Qed.
(* The value must not be the last of the unit (C49_index_refuted). *)
Theorem C49_index_partial : forall u a v b, has_value u a v b -> In (a_form a) index_forms -> a_valp a + zlen b < u_endp u ->
  exists n, v = Unsigned n /\ formudata u a true = Ok n.
Proof.
  intros u a v b H F LT. destruct (index_ok u a v b H) as [K W]. unfold formudata. cbn in F.
  destruct F as [F|[F|[F|[F|[F|[F|[]]]]]]]; rewrite <- F in *; cbn.
  - destruct (K ltac:(cbn; tauto)) as (n & -> & _ & R). exists n. split; [reflexivity|exact R].
  - destruct (K ltac:(cbn; tauto)) as (n & -> & _ & R). exists n. split; [reflexivity|exact R].
  - destruct (W 1 ltac:(lia) ltac:(cbn; tauto) LT) as (n & -> & _ & R). exists n. split; [reflexivity|exact R].
  - destruct (W 2 ltac:(lia) ltac:(cbn; tauto) LT) as (n & -> & _ & R). exists n. split; [reflexivity|exact R].
  - destruct (W 3 ltac:(lia) ltac:(cbn; tauto) LT) as (n & -> & _ & R). exists n. split; [reflexivity|exact R].
  - destruct (W 4 ltac:(lia) ltac:(cbn; tauto) LT) as (n & -> & _ & R). exists n. split; [reflexivity|exact R].
Qed.
Print Assumptions C49_index_partial.
(* The last value of a unit is refused. *)
Theorem C49_index_refuted : exists u a v b, has_value u a v b /\ In (a_form a) index_forms /\ formudata u a true = Err DWARF_E_INVALID_DWARF.
Proof.
  exists (Cu [9; 5] 0 2 8 4 5 true), (Attr 1 FORM_addrx1 1 []), (Unsigned 5), [5].
  split; [split; [split; cbn; lia|]; split; [vm_compute; discriminate|]; split; [vm_compute; reflexivity|]; split|split; [cbn; tauto|vm_compute; reflexivity]].
  - exact (H_fixed (Params true 8 4 5) 41 1 5 ltac:(cbn; tauto) ltac:(lia)).
  - split; [split; [cbn; lia|split; [vm_compute; discriminate|reflexivity]]|vm_compute; discriminate].
Qed.
Print Assumptions C49_index_refuted.

(* Addresses: directly, or by index into a table of addresses starting at [base]. *)
Theorem C49_addr : forall u a v b base tab, has_value u a v b -> a_form a = FORM_addr -> exists n, v = Unsigned n /\ formaddr u a base tab = Ok n.
Proof.
  intros u a v b base tab H F. pose proof H as (SZ & E & M & _). 
  destruct (fixed_read u a v b (u_asize u) H) as (n & -> & _ & R & P & W); [rewrite F; cbn; tauto|]. exists n. split; [reflexivity|].
  unfold formaddr. rewrite F. cbn. unfold read_address, in_section. destruct SZ as [SA _].
  replace (negb ((a_valp a <? 0) || (zlen (u_mem u) <? u_asize u) || (zlen (u_mem u) - u_asize u <? a_valp a))) with true by lia.
  destruct SA as [SA | SA]; rewrite SA in *; exact R.
Qed.
Print Assumptions C49_addr.
(* The index must not be the last value of the unit (C49_addrx_refuted). *)
Theorem C49_addrx_partial : forall u a i b base tab addrs x, has_value u a (Unsigned i) b -> In (a_form a) index_forms -> a_valp a + zlen b < u_endp u ->
  at_ tab base (concat (map (enc (u_fle u) (u_asize u)) addrs)) -> Forall (fun x => 0 <= x < 256 ^ u_asize u) addrs -> zlen tab < two63 ->
  znth addrs i = Some x -> formaddr u a (Some base) (Some tab) = Ok x.
Proof.
  intros u a i b base tab addrs x H F LT AT AD TB X. pose proof H as (SZ & E & M & _). destruct SZ as [SA _].
  assert (AX : addrx u (Some base) (Some tab) i = Ok x).
  { unfold znth in X. destruct ((0 <=? i) && (i <? zlen addrs)) eqn:I; [|discriminate]. apply nth_error_split in X as (l1 & l2 & -> & L1).
    assert (CL : forall l, zlen (concat (map (enc (u_fle u) (u_asize u)) l)) = u_asize u * zlen l).
    { induction l as [|y l IH]; [cbn; lia|]. cbn [map concat]. rewrite zlen_app, zlen_enc, IH, zlen_cons by lia. lia. }
    rewrite map_app, concat_app in AT. cbn [map concat] in AT. pose proof (at_app2 _ _ _ _ AT) as AT2. rewrite CL in AT2. apply at_app1 in AT2.
    replace (zlen l1) with i in AT2 by (unfold zlen; lia). pose proof (at_bound _ _ _ AT2) as [B1 B2]. rewrite zlen_enc in B2 by lia.
    pose proof (at_bound _ _ _ AT) as [B3 _].
    unfold addrx. replace (zlen tab <? u_asize u) with false by lia. replace (zlen tab - u_asize u <? base) with false by nia.
    assert (IB : 0 <= i * u_asize u) by nia. rewrite !u64_small by lia. rewrite (Z.mul_comm i).
    replace (zlen tab - u_asize u - base <? u_asize u * i) with false by lia.
    apply Forall_app in AD as [_ AD]. pose proof (Forall_inv AD) as XB. cbn beta in XB.
    destruct SA as [SA | SA]; rewrite SA in *; [exact (rd_at _ _ _ 4 x ltac:(lia) XB AT2)|exact (rd_at _ _ _ 8 x ltac:(lia) XB AT2)]. }
  destruct (index_ok u a _ b H) as [K W]. unfold formaddr. cbn in F.
  destruct F as [F|[F|[F|[F|[F|[F|[]]]]]]]; rewrite <- F in *; cbn -[index_value addrx].
  - destruct (K ltac:(cbn; tauto)) as (n & EQ & _ & ->). injection EQ as <-. exact AX.
  - destruct (K ltac:(cbn; tauto)) as (n & EQ & _ & ->). injection EQ as <-. exact AX.
  - destruct (W 1 ltac:(lia) ltac:(cbn; tauto) LT) as (n & EQ & _ & ->). injection EQ as <-. exact AX.
  - destruct (W 2 ltac:(lia) ltac:(cbn; tauto) LT) as (n & EQ & _ & ->). injection EQ as <-. exact AX.
  - destruct (W 3 ltac:(lia) ltac:(cbn; tauto) LT) as (n & EQ & _ & ->). injection EQ as <-. exact AX.
  - destruct (W 4 ltac:(lia) ltac:(cbn; tauto) LT) as (n & EQ & _ & ->). injection EQ as <-. exact AX.
Qed.
Print Assumptions C49_addrx_partial.
(* The index is scaled modulo 2^64: an index far outside the table yields its first entry. *)
Theorem C49_addrx_refuted : exists u a i b tab, has_value u a (Unsigned i) b /\ i = 2 ^ 62 /\ zlen tab = 4 /\ u_asize u = 4 /\
  formaddr u a (Some 0) (Some tab) = Ok (le_value tab).
Proof.
  pose (m := [128; 128; 128; 128; 128; 128; 128; 128; 64]).
  exists (Cu (m ++ [0]) 0 10 4 4 5 true), (Attr 1 FORM_addrx 0 []), (2 ^ 62), m, [1; 2; 3; 4].
  split; [split; [split; cbn; lia|]; split; [vm_compute; discriminate|]; split; [vm_compute; reflexivity|]; split; [apply H_uleb|split]|].
  - cbn. tauto.
  - split; [cbn; lia|]. split; [cbn; lia|]. split; [reflexivity|lia].
  - split; [cbn; lia|split; [vm_compute; discriminate|reflexivity]].
  - vm_compute; discriminate.
  - split; [reflexivity|]. split; [reflexivity|]. split; [reflexivity|]. vm_compute. reflexivity.
Qed.
Print Assumptions C49_addrx_refuted.

(* Strings: inline, by offset into the string section, and by index. *)
Theorem C49_string : forall u a s b str ls so base, has_value u a (Text s) b -> a_form a = FORM_string ->
  exists p, formstring u a str ls so base = Ok (InUnit p) /\ at_ (u_mem u) p (s ++ [0]).
Proof.
  intros u a s b str ls so base (SZ & E & M & H & A & L) F. exists (a_valp a). unfold formstring. rewrite F in *. split; [reflexivity|].
  remember (Text s) as v eqn:VV. remember FORM_string as f eqn:FF.
  destruct H as [form w' n W V|d L16|form n d K' U|n d S0| | |d LB|d LB|d LB|form d x F' U|s' F'|form v x d U FB FN H]; try discriminate. injection VV as <-. exact A.
Qed.
Print Assumptions C49_string.
Theorem C49_strp : forall u a o b str ls so base, has_value u a (Unsigned o) b -> a_form a = FORM_strp -> o < zlen str ->
  formstring u a (Some str) ls so base = Ok (InStr o).
Proof.
  intros u a o b str ls so base H F O. pose proof H as (SZ & E & M & _). 
  destruct (fixed_read u a _ b (u_osize u) H) as (n & EQ & N & R & P & W); [rewrite F; cbn; tauto|]. injection EQ as <-.
  unfold formstring. rewrite F. cbn. unfold read_offset, read_address, in_section, offset_in_section. destruct SZ as [_ SO].
  replace (negb ((a_valp a <? 0) || (zlen (u_mem u) <? u_osize u) || (zlen (u_mem u) - u_osize u <? a_valp a))) with true by lia.
  replace (rd (u_fle u) (u_mem u) (a_valp a) (if u_osize u =? 4 then 4 else 8)) with (@Ok Z o) by (destruct SO as [SO | SO]; rewrite SO in *; symmetry; exact R).
  cbn [obind]. replace ((zlen str <? o) || (zlen str <? 1) || (zlen str - 1 <? o)) with false by lia. reflexivity.
Qed.
Print Assumptions C49_strp.
(* The index must not be the last value of the unit (C49_strx_refuted). *)
Theorem C49_strx_partial : forall u a i b str ls tab base offs o, has_value u a (Unsigned i) b -> In (a_form a) [26; 7938; 37; 38; 39; 40] ->
  a_valp a + zlen b < u_endp u ->
  at_ tab base (concat (map (enc (u_fle u) (u_osize u)) offs)) -> Forall (fun x => 0 <= x < 256 ^ u_osize u) offs -> zlen tab < two63 ->
  znth offs i = Some o -> o < zlen str -> formstring u a (Some str) ls (Some tab) (Some base) = Ok (InStr o).
Proof.
  intros u a i b str ls tab base offs o H F LT AT AD TB X O. pose proof H as (SZ & E & M & _). destruct SZ as [_ SO].
  assert (AX : (if zlen tab <? u_osize u then Err DWARF_E_INVALID_OFFSET
          else if zlen tab - u_osize u <? base then Err DWARF_E_INVALID_OFFSET
          else if (zlen tab - u_osize u - base) / u_osize u <? i then Err DWARF_E_INVALID_OFFSET
               else off <- rd (u_fle u) tab (base + i * u_osize u) (if u_osize u =? 4 then 4 else 8) ;;
                    if zlen str <? off then Err DWARF_E_INVALID_OFFSET else Ok (InStr off)) = Ok (InStr o)).
  { unfold znth in X. destruct ((0 <=? i) && (i <? zlen offs)) eqn:I; [|discriminate]. apply nth_error_split in X as (l1 & l2 & -> & L1).
    assert (CL : forall l, zlen (concat (map (enc (u_fle u) (u_osize u)) l)) = u_osize u * zlen l).
    { induction l as [|y l IH]; [cbn; lia|]. cbn [map concat]. rewrite zlen_app, zlen_enc, IH, zlen_cons by lia. lia. }
    rewrite map_app, concat_app in AT. cbn [map concat] in AT. pose proof (at_app2 _ _ _ _ AT) as AT2. rewrite CL in AT2. apply at_app1 in AT2.
    replace (zlen l1) with i in AT2 by (unfold zlen; lia). pose proof (at_bound _ _ _ AT2) as [B1 B2]. rewrite zlen_enc in B2 by lia.
    pose proof (at_bound _ _ _ AT) as [B3 _].
    replace (zlen tab <? u_osize u) with false by lia. replace (zlen tab - u_osize u <? base) with false by nia.
    replace ((zlen tab - u_osize u - base) / u_osize u <? i) with false.
    2:{ symmetry. apply Z.ltb_ge. apply Z.div_le_lower_bound; [lia|]. lia. }
    rewrite (Z.mul_comm i).
    apply Forall_app in AD as [_ AD]. pose proof (Forall_inv AD) as XB. cbn beta in XB.
    replace (rd (u_fle u) tab (base + u_osize u * i) (if u_osize u =? 4 then 4 else 8)) with (@Ok Z o).
    2:{ symmetry. destruct SO as [SO | SO]; rewrite SO in *; [exact (rd_at _ _ _ 4 o ltac:(lia) XB AT2)|exact (rd_at _ _ _ 8 o ltac:(lia) XB AT2)]. }
    cbn [obind]. replace (zlen str <? o) with false by lia. reflexivity. }
  destruct (index_ok u a _ b H) as [K W]. unfold formstring. cbn in F.
  destruct F as [F|[F|[F|[F|[F|[F|[]]]]]]]; rewrite <- F in *; cbn -[Z.div index_value].
  - destruct (K ltac:(cbn; tauto)) as (n & EQ & _ & ->). injection EQ as <-. exact AX.
  - destruct (K ltac:(cbn; tauto)) as (n & EQ & _ & ->). injection EQ as <-. exact AX.
  - destruct (W 1 ltac:(lia) ltac:(cbn; tauto) LT) as (n & EQ & _ & ->). injection EQ as <-. exact AX.
  - destruct (W 2 ltac:(lia) ltac:(cbn; tauto) LT) as (n & EQ & _ & ->). injection EQ as <-. exact AX.
  - destruct (W 3 ltac:(lia) ltac:(cbn; tauto) LT) as (n & EQ & _ & ->). injection EQ as <-. exact AX.
  - destruct (W 4 ltac:(lia) ltac:(cbn; tauto) LT) as (n & EQ & _ & ->). injection EQ as <-. exact AX.
Qed.
Print Assumptions C49_strx_partial.
(* By index, the place behind the last string is accepted. *)
Theorem C49_strx_refuted : exists u a i b str tab o, has_value u a (Unsigned i) b /\
  formstring u a (Some str) None (Some tab) (Some 0) = Ok (InStr o) /\ o = zlen str.
Proof.
  exists (Cu [0; 7] 0 2 8 4 5 true), (Attr 1 FORM_strx 0 []), 0, [0], [65; 0], [2; 0; 0; 0], 2.
  split; [split; [split; cbn; lia|]; split; [vm_compute; discriminate|]; split; [vm_compute; reflexivity|]; split; [apply H_uleb|split]|].
  - cbn. tauto.
  - split; [cbn; lia|]. split; [cbn; lia|]. split; [reflexivity|lia].
  - split; [cbn; lia|split; [vm_compute; discriminate|reflexivity]].
  - vm_compute; discriminate.
  - split; vm_compute; reflexivity.
Qed.
Print Assumptions C49_strx_refuted.

(* Values meeting the hypotheses. *)
Definition ex_unit : cu := Cu ([254; 255] ++ [5; 9; 9; 9; 9; 9] ++ [227; 0; 0; 0] ++ [1] ++ [2; 0] ++ [65; 66; 0] ++ [0]) 0 19 4 4 5 true.
Example C49_nonvacuous :
  has_value ex_unit (Attr 3 FORM_data2 0 []) (Unsigned 65534) [254; 255] /\ formudata ex_unit (Attr 3 FORM_data2 0 []) true = Ok 65534 /\
  formsdata ex_unit (Attr 3 FORM_data2 0 []) = Ok (-2) /\
  has_value ex_unit (Attr 3 FORM_block1 2 []) (Bytes [9; 9; 9; 9; 9]) [5; 9; 9; 9; 9; 9] /\ formblock ex_unit (Attr 3 FORM_block1 2 []) = Ok (3, 5) /\
  formref ex_unit (Attr 3 FORM_ref4 8 []) = Ok 227 /\ formflag ex_unit (Attr 3 FORM_flag 12 []) = Ok true /\
  formaddr ex_unit (Attr 3 FORM_addrx2 13 []) (Some 4) (Some [0; 0; 0; 0; 1; 0; 0; 0; 2; 0; 0; 0; 3; 0; 0; 0]) = Ok 3 /\
  formstring ex_unit (Attr 3 FORM_strx1 12 []) (Some [70; 0; 71; 0]) None (Some [0; 0; 0; 0; 2; 0; 0; 0]) (Some 0) = Ok (InStr 2) /\
  formstring ex_unit (Attr 3 FORM_string 15 []) None None None None = Ok (InUnit 15).
Proof.
  split.
  { split; [split; cbn; lia|]; split; [vm_compute; discriminate|]; split; [vm_compute; reflexivity|]; split.
    - exact (H_fixed (Params true 4 4 5) 5 2 65534 ltac:(cbn; tauto) ltac:(lia)).
    - split; [split; [cbn; lia|split; [vm_compute; discriminate|reflexivity]]|vm_compute; discriminate]. }
  split; [vm_compute; reflexivity|]. split; [vm_compute; reflexivity|].
  split.
  { split; [split; cbn; lia|]; split; [vm_compute; discriminate|]; split; [vm_compute; reflexivity|]; split.
    - exact (H_block1 (Params true 4 4 5) [9; 9; 9; 9; 9] eq_refl).
    - split; [split; [cbn; lia|split; [vm_compute; discriminate|reflexivity]]|vm_compute; discriminate]. }
  vm_compute. repeat split; reflexivity.
Qed.
