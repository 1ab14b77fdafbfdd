(* Proofs about XlateModel: the interface functions on fixed records. *)
From Verif Require Import Base ElfErr XlateModel XlateSpec XlateProof.

Lemma spec_widths_range : forall c64 ty ws, spec_widths c64 ty = Some ws -> 0 <= ty < 27.
Proof.
  intros c64 ty ws H. destruct ty as [|p|p]; [lia| |discriminate].
  unfold spec_widths in H.
  destruct (Z_lt_le_dec (Z.pos p) 27) as [L|L]; [lia|exfalso].
  do 5 (destruct p as [p|p|]; try discriminate; try lia).
Qed.

Lemma type_cases : forall ty, 0 <= ty < 27 ->
  In ty [0;1;2;3;4;5;6;7;8;9;10;11;12;13;14;15;16;17;18;19;20;21;22;23;24;25;26].
Proof. intros ty H. cbn [In]. lia. Qed.

Lemma fsize_spec : forall c64 ty ws, spec_widths c64 ty = Some ws ->
  fsize c64 ty = Some (Z.of_nat (total ws)) /\ (0 < total ws)%nat.
Proof.
  intros c64 ty ws H. pose proof (type_cases ty (spec_widths_range _ _ _ H)) as I.
  cbn [In] in I.
  repeat (destruct I as [I|I]; [subst ty; destruct c64; cbn in H; try discriminate;
    injection H as <-; (split; [vm_compute; reflexivity|cbn; lia])|]). destruct I.
Qed.


Lemma xfct_records : forall c64 ty ws le enc m d s len,
  spec_widths c64 ty = Some ws -> 0 <= len -> len mod Z.of_nat (total ws) = 0 ->
  (spec_simple c64 ty = true \/ fwd d s len) ->
  exists m', xfct c64 ty le enc m d s len = Ok m' /\
    rdm m' d (Z.to_nat len)
    = swap_records ws (Z.to_nat (len / Z.of_nat (total ws))) (rdm m s (Z.to_nat len)) /\
    (forall x, ~ (d <= x < d + len) -> m' x = m x).
Proof.
  intros c64 ty ws le enc m d s len H Hl Hm Hf.
  pose proof (type_cases ty (spec_widths_range _ _ _ H)) as I. cbn [In] in I.
  destruct I as [I|I].
  { subst ty. injection H as <-. unfold xfct. cbn [Z.eqb]. change (0 =? ELF_T_BYTE) with true. cbn match.
    cbn [total fold_right Nat.add]. change (Z.of_nat 1) with 1 in *. rewrite Z.div_1_r.
    eexists. split; [reflexivity|].
    rewrite swap_records_1 by apply rdm_len.
    destruct (len =? 0) eqn:E.
    - assert (len = 0) by lia. subst len. split; [reflexivity|auto].
    - apply memmove_ok; assumption. }
  repeat (destruct I as [I|I]; [subst ty; destruct c64; cbn in H; try discriminate; injection H as <-;
    unfold xfct; cbn match beta;
    (eexists; split; [reflexivity|]);
    first [ apply cvt_fund_ok; [lia|exact Hl|exact Hm]
          | apply cvt_struct_ok; [reflexivity|reflexivity|reflexivity|reflexivity|exact Hl|exact Hm|];
            destruct Hf as [Hf|Hf]; [discriminate Hf|exact Hf] ] |]).
  destruct I.
Qed.


Lemma xlate_records : forall tof c64 le ty ws m d s dsz len dty encode,
  spec_widths c64 ty = Some ws -> 0 <= len <= dsz -> len mod Z.of_nat (total ws) = 0 ->
  enc_ok encode ->
  (spec_simple c64 ty = true \/ native le encode = true \/ fwd d s len) ->
  exists m', xlate tof c64 le m (EData d dty dsz) (EData s ty len) encode = Ok (m', EData d ty len) /\
    rdm m' d (Z.to_nat len)
    = (if native le encode then rdm m s (Z.to_nat len)
       else swap_records ws (Z.to_nat (len / Z.of_nat (total ws))) (rdm m s (Z.to_nat len))) /\
    (forall x, ~ (d <= x < d + len) -> m' x = m x).
Proof.
  intros tof c64 le ty ws m d s dsz len dty encode H Hl Hm He Hf.
  destruct (fsize_spec _ _ _ H) as [Fs Fp].
  unfold xlate. cbn [d_type d_size d_buf]. rewrite Fs.
  replace (len mod Z.of_nat (total ws) =? 0) with true by lia. rewrite andb_false_r.
  replace (dsz <? len) with false by lia.
  replace ((encode =? ELFDATA2LSB) || (encode =? ELFDATA2MSB)) with true
    by (symmetry; destruct He; subst; reflexivity). cbn [negb].
  change (if le then encode =? ELFDATA2LSB else encode =? ELFDATA2MSB) with (native le encode). destruct (native le encode) eqn:N.
  - cbn [obind]. eexists. split; [reflexivity|]. destruct (s =? d) eqn:E.
    + assert (s = d) by lia. subst s. split; [reflexivity|auto].
    + apply memmove_ok. lia.
  - destruct (xfct_records c64 ty ws le tof m d s len H) as (m' & X & R & F); [lia|assumption| |].
    { destruct Hf as [Hf|[Hf|Hf]]; [auto|congruence|auto]. }
    rewrite X. cbn [obind]. exists m'. split; [reflexivity|]. split; assumption.
Qed.

Lemma xlate_rejects : forall tof c64 le m dst src encode r,
  fsize c64 (d_type src) = Some r ->
  (d_size dst < d_size src -> exists e, xlate tof c64 le m dst src encode = Err e) /\
  (~ enc_ok encode -> exists e, xlate tof c64 le m dst src encode = Err e) /\
  (d_type src <> ELF_T_NHDR -> d_type src <> ELF_T_NHDR8 -> d_size src mod r <> 0 ->
     xlate tof c64 le m dst src encode = Err ELF_E_INVALID_DATA).
Proof.
  intros tof c64 le m dst src encode r Fs. unfold xlate. rewrite Fs.
  set (c := (tof || negb ((d_type src =? ELF_T_NHDR) || (d_type src =? ELF_T_NHDR8)))%bool).
  split; [|split].
  - intros H. destruct (c && negb (d_size src mod r =? 0)); [eauto|].
    replace (d_size dst <? d_size src) with true by lia. eauto.
  - intros H. destruct (c && negb (d_size src mod r =? 0)); [eauto|].
    destruct (d_size dst <? d_size src); [eauto|].
    replace ((encode =? ELFDATA2LSB) || (encode =? ELFDATA2MSB)) with false; [eexists; reflexivity|].
    symmetry. apply orb_false_iff. unfold enc_ok in H. split; apply Z.eqb_neq; intuition.
  - intros H1 H2 H3. assert (c = true) as ->.
    { unfold c. apply Z.eqb_neq in H1. apply Z.eqb_neq in H2. rewrite H1, H2. apply orb_true_r. }
    replace (d_size src mod r =? 0) with false by (symmetry; apply Z.eqb_neq; exact H3). reflexivity.
Qed.

(* ------------------------------------------------------------------ *)
(* Compressed sections. *)
Lemma widths_chdr : forall c64, contig 0 (fs_chdr c64) = true /\ widths_of (fs_chdr c64) = chdr_widths c64
  /\ sz_chdr c64 = Z.of_nat (total (chdr_widths c64)).
Proof. intros []; repeat split; reflexivity. Qed.

Lemma cvt_chdr_ok : forall c64 m d s len, 0 <= len ->
  (d = s \/ d + len <= s \/ s + len <= d) ->
  let m' := cvt_chdr c64 m d s len in
  rdm m' d (Z.to_nat len) = swap_chdr c64 (rdm m s (Z.to_nat len)) /\
  (forall x, ~ (d <= x < d + len) -> m' x = m x).
Proof.
  intros c64 m d s len Hl Hd m'. unfold m', cvt_chdr.
  destruct (widths_chdr c64) as (C & W & Z1). set (T := total (chdr_widths c64)) in *.
  assert (TP : (0 < T)%nat) by (subst T; destruct c64; cbn; lia).
  destruct (len =? 0) eqn:E0.
  { assert (len = 0) by lia. subst len. cbn [Z.to_nat]. split; [|auto].
    unfold swap_chdr. fold T. rewrite rdm_len.
    replace (T <=? 0)%nat with false by (symmetry; apply Nat.leb_gt; lia). reflexivity. }
  set (m1 := if d =? s then m else memmove m d s len).
  assert (M1 : rdm m1 d (Z.to_nat len) = rdm m s (Z.to_nat len) /\
               (forall x, ~ (d <= x < d + len) -> m1 x = m x) /\
               rdm m1 s (Z.to_nat len) = rdm m s (Z.to_nat len)).
  { unfold m1. destruct (d =? s) eqn:E.
    - assert (d = s) by lia. subst d. repeat split; auto.
    - destruct (memmove_ok m d s len Hl) as [A B]. split; [exact A|]. split; [exact B|].
      apply rdm_ext. intros. apply B. lia. }
  destruct M1 as (A & B & D).
  destruct (sz_chdr c64 <=? len) eqn:E1.
  - destruct (cvt_struct_ok (sz_chdr c64) (fs_chdr c64) (chdr_widths c64) m1 d s (sz_chdr c64) C W Z1
               ltac:(lia) ltac:(lia)) as [R F].
    { apply Z_mod_same_full. } { lia. }
    rewrite Z_div_same_full in R by lia. change (Z.to_nat 1) with 1%nat in R.
    assert (N : Z.to_nat (sz_chdr c64) = T) by (rewrite Z1; lia). rewrite N in R.
    split.
    + unfold swap_chdr. fold T. rewrite rdm_len.
      replace (T <=? Z.to_nat len)%nat with true by (symmetry; apply Nat.leb_le; lia).
      replace (Z.to_nat len) with (T + (Z.to_nat len - T))%nat by lia.
      rewrite rdm_app. rewrite R. cbn [swap_records]. fold T.
      rewrite firstn_rdm, !skipn_rdm, firstn_rdm by lia. rewrite Nat.sub_diag.
      replace (T + (Z.to_nat len - T) - T)%nat with (Z.to_nat len - T)%nat by lia.
      change (rdm m1 (s + Z.of_nat T) 0) with (@nil Z). rewrite app_nil_r.
      f_equal.
      * f_equal. rewrite <- (firstn_rdm T m1 s (Z.to_nat len)), D, firstn_rdm by lia. reflexivity.
      * rewrite (rdm_ext _ m1) by (intros; apply F; lia).
        rewrite <- (skipn_rdm T m1 d (Z.to_nat len)), A, skipn_rdm by lia. reflexivity.
    + intros x Hx. rewrite F by lia. apply B. lia.
  - split; [|exact B]. unfold swap_chdr. fold T. rewrite rdm_len.
    replace (T <=? Z.to_nat len)%nat with false by (symmetry; apply Nat.leb_gt; lia). exact A.
Qed.
