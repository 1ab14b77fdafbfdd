(* Proofs about writing files: the two ways of writing. *)
From Verif Require Import Base WrModel WrSpec WrProof.
From Coq Require Import Sorted Permutation ZifyBool.

Section update.
  Variable byte : Z.
  Variable bo : bool.
  Variable cv : Z -> bytes -> bytes.
  Hypothesis cv_len : forall t b, zlen (cv t b) = zlen b.
  Variable w : wfile.
  Hypothesis P : placed w.
  Variable f0 : store.
  Let full := f_dirty w && all_data w.
  Notation WW := (W byte (f_start w) full f0).
  Let full_ok : full = true -> f_dirty w = true /\ all_data w = true.
  Proof. unfold full. intro H. apply andb_prop in H. exact H. Qed.
  Notation tend := (zlen (f_scns w) * f_shent w).

  Lemma zero_all l : Permutation (f_scns w) l -> Forall (fun s => v_index s = 0 -> v_flag s = false) l.
  Proof. intro H. eapply Permutation_Forall; [exact H|apply (pl_zero _ P)]. Qed.
  (* where the last section ends, seen from the table *)
  Lemma end_table last' : end_ok bo cv w (sort_scns (f_scns w)) (f_start w + head_end w) last' -> f_start w + f_shoff w + tend <= last' \/ last' <= f_start w + f_shoff w.
  Proof.
    destruct (pl_table _ P) as (T1 & T2). intros [(E & _) | (s & I & S1 & R & _)]; [lia|]. apply (Permutation_in _ (Permutation_sym (sort_perm _))) in I.
    pose proof (proj1 (Forall_forall _ _) T2 s I S1) as A. cbn beta in A.  unfold apart in A. lia.
  Qed.
  Lemma end_last last' : table_last w -> end_ok bo cv w (sort_scns (f_scns w)) (f_start w + head_end w) last' -> last' <= f_start w + f_shoff w.
  Proof.
    destruct (pl_table _ P) as (T1 & T2). intros TL [(E & _) | (s & I & S1 & R & _)]; [lia|]. apply (Permutation_in _ (Permutation_sym (sort_perm _))) in I.
    pose proof (proj1 (Forall_forall _ _) TL s I S1) as A. cbn beta in A. lia.
  Qed.
  Lemma end_attained L last last' : end_ok bo cv w (sort_scns (f_scns w)) last last' -> (exists p n o, In (p, n, o) L /\ p + n = last) ->
    exists p n o, In (p, n, o) (L ++ flat_map (scn_pieces (conv bo cv) w) (sort_scns (f_scns w))) /\ p + n = last'.
  Proof.
    intros [(E & _) | (s & I & S1 & R & p & n & o & I2 & E)] (p1 & n1 & o1 & I1 & E1).
    - exists p1, n1, o1. split; [apply in_or_app; left; exact I1|lia].
    - exists p, n, o. split; [apply in_or_app; right; apply in_flat_map; exists s; split; assumption|exact E].
  Qed.
  Lemma head_attained : exists p n o, In (p, n, o) (head_pieces (conv bo cv) w) /\ p + n = f_start w + head_end w.
  Proof.
    unfold head_pieces, head_end, piece_if. pose proof (pl_head _ P). destruct (f_phdrs w) as [ph|].
    - eexists _, _, _. split; [right; left; reflexivity|]. lia.
    - eexists _, _, _. split; [left; reflexivity|]. lia.
  Qed.

  Theorem updatefile_ok (junk : bytes) : zlen junk = 4096 -> f_start w = 0 -> (f_dirty w || existsb v_sflag (f_scns w) = false -> table_last w) ->
    exists f', updatefile byte bo cv junk w f0 = Ok (f', cleared w) /\ file_is byte full (f_start w) (file_end w) (pieces (conv bo cv) (fun _ => f_dirty w || existsb v_sflag (f_scns w)) w) f0 f'.
  Proof.
    intros ZJ S0 TL. pose proof (pl_head _ P) as PH. pose proof (pl_phdr _ P) as PP.
    unfold updatefile. cbv zeta.
    pose proof (W_piece byte bo cv cv_len w full f0 f0 [] (f_start w) (f_edirty w || f_dirty w) T_EHDR (f_eimg w) (W_nil byte (f_start w) full f0)) as H1. cbn [app] in H1. rewrite PH in H1.
    assert (FJ : fillok byte (junk, 0)) by (split; [exact ZJ|]; split; [cbn [snd]; lia|]; cbn [snd]; intros i I; lia).
    set (f1 := if f_edirty w || f_dirty w then put f0 0 (conv bo cv T_EHDR (f_eimg w)) else f0).
    assert (EQ1 : (if f_edirty w || f_dirty w then put f0 (f_start w) (conv bo cv T_EHDR (f_eimg w)) else f0) = f1) by (rewrite S0; reflexivity). rewrite EQ1 in H1. clearbody f1.
    (* the program headers *)
    assert (HD : exists f2 fs2 prev2, (match f_phdrs w with
      | Some ph => if f_pdirty w || f_dirty w then
          ' (f, fs) <- (if f_ehsize w <? f_phoff w then fill byte f1 (f_ehsize w) (f_phoff w - f_ehsize w) (junk, 0) else Ok (f1, (junk, 0))) ;; Ok (put f (f_phoff w) (conv bo cv T_PHDR ph), fs, true)
        else Ok (f1, (junk, 0), (f_edirty w || f_dirty w) && match f_phdrs w with None => true | Some _ => false end)
      | None => Ok (f1, (junk, 0), (f_edirty w || f_dirty w) && match f_phdrs w with None => true | Some _ => false end) end) = Ok (f2, fs2, prev2) /\ fillok byte fs2 /\
      WW f2 (head_pieces (conv bo cv) w) (f_start w + head_end w)).
    { unfold head_pieces, head_end. destruct (f_phdrs w) as [ph|].
      - destruct (f_pdirty w || f_dirty w) eqn:D.
        + destruct (gap_step byte bo cv cv_len w full full_ok f0 f1 _ (f_start w + f_ehsize w) (junk, 0) (f_start w + f_phoff w) true H1 FJ ltac:(lia) ltac:(discriminate)) as (f2 & fs2 & E & F & H2).
          rewrite andb_true_r in E. rewrite S0 in E. replace (0 + f_phoff w - (0 + f_ehsize w)) with (f_phoff w - f_ehsize w) in E by lia. change (0 + f_ehsize w) with (f_ehsize w) in E. change (0 + f_phoff w) with (f_phoff w) in E. rewrite E. cbn [obind].
          eexists _, _, _. split; [reflexivity|]. split; [exact F|]. pose proof (W_piece byte bo cv cv_len w full f0 f2 _ (f_start w + f_phoff w) true T_PHDR ph H2) as H3. cbn [app] in H3. rewrite S0 in *. rewrite Z.add_assoc. exact H3.
        + eexists _, _, _. split; [reflexivity|]. split; [exact FJ|]. assert (FF : full = false) by (unfold full; apply orb_false_elim in D as (_ & D); rewrite D; reflexivity).
          pose proof (W_skip byte (f_start w) full f0 f1 _ _ (f_start w + f_phoff w) H1 ltac:(lia) (or_introl FF)) as H2.
          pose proof (W_piece byte bo cv cv_len w full f0 f1 _ (f_start w + f_phoff w) false T_PHDR ph H2) as H3. cbn [app] in H3. rewrite Z.add_assoc. exact H3.
      - eexists _, _, _. split; [reflexivity|]. split; [exact FJ|]. exact H1. }
    destruct HD as (f2 & fs2 & prev2 & E2 & F2 & H2). rewrite E2. cbn [obind].
    assert (LA : match f_phdrs w with None => zlen (f_eimg w) | Some ph => f_phoff w + zlen ph end = f_start w + head_end w) by (unfold head_end; destruct (f_phdrs w); lia). rewrite LA.
    destruct (f_scns w) as [|s0 r0] eqn:SC.
    { eexists. split; [reflexivity|]. eapply W_done; [exact H2|lia| |apply head_attained]. intro x. unfold pieces, table_pieces. rewrite SC. cbn. rewrite app_nil_r. reflexivity. }
    rewrite <- SC in *. assert (NE : f_scns w <> []) by (rewrite SC; discriminate).
    destruct (write_scns_ok byte bo cv cv_len w full full_ok f0 (sort_scns (f_scns w)) (scn_wf_all w P _ (sort_perm _)) (zero_all _ (sort_perm _)) (fun s I => Permutation_in s (Permutation_sym (sort_perm _)) I)
                f2 fs2 (f_start w + head_end w) prev2 (head_end w) (head_pieces (conv bo cv) w) H2 F2 ltac:(lia) (placed_chain w P)) as (st & E3 & F3 & H3 & EN).
    rewrite E3. cbn [obind].
    pose proof (end_attained (head_pieces (conv bo cv) w) _ _ EN head_attained) as AT. pose proof (end_table _ EN) as ET.
    set (shoff := f_start w + f_shoff w) in *. set (L := head_pieces (conv bo cv) w ++ flat_map (scn_pieces (conv bo cv) w) (sort_scns (f_scns w))) in *.
    (* the gap before the table *)
    assert (GP : exists f4 fs4 hi, (if f_dirty w && (x_last st <? shoff) then fill byte (x_f st) (x_last st) (shoff - x_last st) (x_fill st) else Ok (x_f st, x_fill st)) = Ok (f4, fs4) /\ WW f4 L hi /\
      (shoff + tend <= hi \/ shoff = hi) /\ ((exists p n o, In (p, n, o) L /\ p + n = hi) \/ hi <= shoff + tend)).
    { pose proof (tend_nonneg w P) as TN.  destruct (Z_le_dec (x_last st) shoff) as [l | g].
      - destruct (gap_step byte bo cv cv_len w full full_ok f0 (x_f st) L (x_last st) (x_fill st) shoff (f_dirty w) H3 F3 l) as (f4 & fs4 & E4 & _ & H4); [intro C; unfold full; rewrite C; reflexivity|].
        exists f4, fs4, shoff. rewrite andb_comm in E4. split; [exact E4|]. split; [exact H4|]. split; [right; reflexivity|]. right. lia.
      - exists (x_f st), (x_fill st), (x_last st). replace (x_last st <? shoff) with false by lia. rewrite andb_false_r. split; [reflexivity|]. split; [exact H3|]. split; [left; destruct ET; lia|]. left. exact AT. }
    destruct GP as (f4 & fs4 & hi & E4 & H4 & HI & AT4). rewrite E4. cbn [obind].
    destruct (f_dirty w || existsb v_sflag (f_scns w)) eqn:TD.
    - destruct (put_table bo cv cv_len w P f0 f4 (fun _ => true) (fun _ => eq_refl)) as (PT1 & PT2).  change (concat (map (fun s => conv bo cv 9 (v_img s)) (f_scns w))) with (table bo cv w) in *. fold shoff in PT2.
      assert (EQ : (match f_arr w with Some a => if bo || f_dirty w then Ok (put f4 shoff (table bo cv w)) else if zlen a <? zlen (table bo cv w) then UB else Ok (put f4 shoff (zsub a 0 (zlen (table bo cv w)))) | None => Ok (put f4 shoff (table bo cv w)) end) = Ok (put f4 shoff (table bo cv w))).
      { destruct (f_arr w) as [a|] eqn:AR; [|reflexivity]. destruct (bo || f_dirty w) eqn:BD; [reflexivity|]. apply orb_false_elim in BD as (BD & _). pose proof (pl_array _ P) as PA. rewrite AR in PA.
        assert (TA : table bo cv w = a) by (rewrite PA; unfold table; f_equal; apply map_ext; intro s; unfold conv; rewrite BD; reflexivity).
        rewrite TA. replace (zlen a <? zlen a) with false by lia. f_equal. f_equal. unfold zsub. cbn [Z.to_nat skipn]. unfold zlen. rewrite Nat2Z.id. apply firstn_all. }
      rewrite EQ. cbn [obind]. eexists. split; [reflexivity|].
      eapply (finish byte bo cv cv_len w P f0 f4 _ L hi (fun _ => true) (sort_scns (f_scns w)) (sort_perm _) NE eq_refl H4 HI AT4); [|exact PT2].
      intros q Q. apply put_out. rewrite PT1. exact Q.
    - cbn [obind]. eexists. split; [reflexivity|]. specialize (TL eq_refl). apply orb_false_elim in TD as (TD & _). assert (FF : full = false) by (unfold full; rewrite TD; reflexivity).
      rewrite TD in E4. cbn in E4. injection E4 as <- <-. pose proof (end_last _ TL EN) as EL. fold shoff in EL.
      pose proof (W_skip byte (f_start w) full f0 _ _ _ shoff H3 EL (or_introl FF)) as H5. pose proof (tend_nonneg w P) as TN. 
      eapply (finish byte bo cv cv_len w P f0 (x_f st) _ L shoff (fun _ => false) (sort_scns (f_scns w)) (sort_perm _) NE eq_refl H5); [right; reflexivity|right; fold shoff; lia|reflexivity|].
      intros s I a q Q. destruct H5 as ((_ & _ & C & _) & _). apply C. right.
      assert (0 <= v_index s). { destruct (In_znth _ _ I) as (k & ZN). rewrite (pl_index _ P _ _ ZN). apply znth_range in ZN. lia. }
      pose proof (proj1 (Forall_forall _ _) (pl_image _ P) s I) as IM. cbn beta in IM. pose proof (zlen_nonneg _ (v_img s)). unfold a, shoff in *. nia.
  Qed.
End update.
