(* Reading any bytes at all as a line table: proofs for LineProps. *)
From Verif Require Import Base LebModel LebSpec LebProof DwModel Slice CfiSpec CfiModel CfiProof CfiSafe FormModel FormProps SegProof ArangeProps LineModel.
Require Import ZArith List Lia Bool ZifyBool. Import ListNotations. Open Scope Z_scope.

Definition str_ok (s : option bytes) : Prop := match s with None => True | Some b => bytes_ok b /\ (0 < zlen b -> znth b (zlen b - 1) = Some 0) end.
(* The context: bytes, a zero byte after the unit's end e, room for the fixed fields, string
   sections that end with a zero, and no table of string offsets. *)
Record room (c : lctx) (e : Z) : Prop := Room { rm_bytes : bytes_ok (n_mem c); rm_asize : n_asize c = 4 \/ n_asize c = 8; rm_small : zlen (n_mem c) < two63;
  rm_end : 0 <= e /\ e + 6 <= zlen (n_mem c); rm_zero : znth (n_mem c) e = Some 0; rm_str : str_ok (n_str c); rm_lstr : str_ok (n_lstr c); rm_stro : n_stro c = None }.

Ltac sf := cbn beta in *; cbn [safe fst snd] in *.
Section Safe.
  Variables (c : lctx) (e : Z).
  Hypothesis R : room c e.
  Let mem := n_mem c.
  Let B : bytes_ok mem := rm_bytes _ _ R.
  Lemma byte_safe : forall p, 0 <= p < zlen mem -> safe (CfiModel.byte_at mem p) (fun x => 0 <= x < 256).
  Proof.
    intros p P. unfold CfiModel.byte_at. destruct (Base.znth_in _ mem p P) as [x X]. rewrite X. cbn. pose proof (znth_Forall _ _ _ _ _ B X) as Y. exact Y.
  Qed.
  Lemma leb_safe : forall p, 0 <= p < e -> safe (get_uleb128 mem p e) (fun r => 0 <= fst r < two64 /\ p < snd r <= e).
  Proof. intros p P. destruct (rm_end _ _ R) as [E0 E1]. fold mem in E1. destruct (uleb_any mem p e B ltac:(lia) ltac:(lia)) as (v & q & -> & V & Q & L & _). sf. lia. Qed.
  Lemma uleb_safe : forall p, 0 <= p -> safe (uleb c p e) (fun r => 0 <= fst r < two64 /\ p < snd r <= e).
  Proof. intros p P. unfold uleb. destruct (e <=? p) eqn:L; [exact Logic.I|]. apply leb_safe. lia. Qed.
  Lemma memchr0_safe : forall (m : bytes) fuel p n, 0 <= p -> p + n <= zlen m -> (Z.to_nat n <= fuel)%nat -> safe (memchr0 fuel m p n) (fun r => match r with Some q => p <= q < p + n /\ (znth m p <> Some 0 -> p < q) | None => True end).
  Proof.
    intros m fuel. induction fuel as [|k IH]; intros p n P L F; cbn [memchr0]; destruct (n <=? 0) eqn:N; try exact Logic.I; [lia|]. destruct (Base.znth_in _ m p ltac:(lia)) as [x X]. rewrite X. destruct (x =? 0) eqn:X0.
    - cbn. split; [lia|]. intro H. apply Z.eqb_eq in X0. subst x. congruence.
    - eapply safe_impl; [apply (IH (p + 1) (n - 1)); lia|]. intros [q|]; [|auto]. intros [Q _]. split; [lia|intros _; lia].
  Qed.
  Lemma memchr_safe : forall p, 0 <= p -> safe (memchr_ c p e) (fun r => match r with Some q => p <= q < e /\ (znth mem p <> Some 0 -> p < q) | None => True end).
  Proof.
    intros p P. destruct (rm_end _ _ R) as [E0 E1]. unfold memchr_. eapply safe_impl; [apply memchr0_safe; [lia|lia|unfold zlen in *; lia]|]. fold mem. intros [q|]; [|auto]. intros [Q H]. split; [lia|exact H].
  Qed.
  Lemma file_safe : forall dirs p narrow, 0 <= p -> safe (file_entry c dirs p e narrow) (fun r => p < snd r <= e).
  Proof.
    intros dirs p nar P. unfold file_entry. eapply safe_bind; [apply memchr_safe, P|]. intros [q|] H; [|exact Logic.I]. eapply safe_bind; [apply uleb_safe; lia|]. intros [d p1] [D Q1]. sf. destruct (znth dirs _); [|exact Logic.I].
    eapply safe_bind; [apply uleb_safe; lia|]. intros [m p2] [M Q2]. sf. eapply safe_bind; [apply uleb_safe; lia|]. intros [l p3] [LL Q3]. sf. sf. lia.
  Qed.
  Lemma skip_safe : forall n p, 0 <= p <= e -> safe (skip_args c n p e) (fun q => p <= q <= e).
  Proof.
    induction n as [|n IH]; intros p P; cbn [skip_args]; [sf; lia|]. eapply safe_bind; [apply uleb_safe; lia|]. intros [v q] [V Q]. sf. eapply safe_impl; [apply IH; lia|]. intros z Hz. sf. lia.
  Qed.
  (* A header whose table of opcode lengths lies in the unit *)
  Definition hdr_in (h : lhdr) : Prop := 0 <= g_std h /\ g_std h <= e /\ g_std h + g_opbase h <= e + 1.
  Lemma std_safe : forall h op n, hdr_in h -> 0 <= op -> op < g_opbase h \/ op = 4 -> safe (std_len c h op n) (fun _ => True).
  Proof.
    intros h op n (H0 & H1 & H2) O L. destruct (rm_end _ _ R) as [E0 E1]. fold mem in E1. unfold std_len. eapply safe_bind; [apply byte_safe; lia|]. intros v _. destruct (v =? n); exact Logic.I.
  Qed.
  Lemma line_safe : forall s b, safe (new_line s b) (fun _ => True).
  Proof. intros s b. unfold new_line. match goal with |- safe (if ?x then _ else _) _ => destruct x end; exact Logic.I. Qed.
  Lemma extended_safe : forall h s p, hdr_in h -> 0 <= p <= e -> safe (extended c h s p e) (fun r => p < snd r <= e).
  Proof.
    intros h s p H P. destruct (rm_end _ _ R) as [E0 E1]. pose proof (rm_small _ _ R) as SM. fold mem in E1, SM. unfold extended. destruct (e - p <? 2) eqn:L2; [exact Logic.I|]. eapply safe_bind; [apply byte_safe; lia|]. intros len LN. cbn beta in LN. cbn zeta.
    rewrite u64_small by lia. destruct (e - (p + 1) <? len) eqn:LL; [exact Logic.I|]. eapply safe_bind; [apply byte_safe; lia|]. intros op O. cbn beta in O.
    destruct (op =? 1); [eapply safe_bind; [apply line_safe|]; intros s' _; sf; lia|]. destruct (op =? 2).
    { destruct (rm_asize _ _ R) as [A|A]; rewrite A; change (u8 4) with 4; change (u8 8) with 8; (match goal with |- safe (if ?x then _ else _) _ => destruct x eqn:LA end; [exact Logic.I|]);
        (eapply safe_bind; [|intros a _; sf; lia]; match goal with |- safe (read_address ?f ?d ?q ?w) _ => destruct (read_address_cases f d q w ltac:(lia)) as [(v & -> & _)| ->]; exact Logic.I end). }
    destruct (op =? 3); [eapply safe_bind; [apply file_safe; lia|]; intros [f q] Q; sf; lia|]. destruct (op =? 4) eqn:O4.
    { eapply safe_bind; [apply std_safe; [exact H|lia|right; lia]|]. intros _ _. eapply safe_bind; [apply uleb_safe; lia|]. intros [v q] [V Q]. sf. lia. }
    rewrite u64_small by lia. destruct (e - (p + 1 + 1 - 1) <? len) eqn:L3; [exact Logic.I|]. cbn [safe snd]. lia.
  Qed.
  Lemma standard_safe : forall h s op p, hdr_in h -> 0 <= p <= e -> 0 < op <= 12 -> op < g_opbase h -> safe (standard c h s op p e) (fun r => p <= snd r <= e).
  Proof.
    intros h s op p H P O OB. destruct (rm_end _ _ R) as [E0 E1]. fold mem in E1. unfold standard.
    assert (ST : forall n, safe (std_len c h op n) (fun _ => True)) by (intro n; apply std_safe; [exact H|lia|left; lia]).
    assert (UL : forall f : Z -> lstate, safe (_ <- std_len c h op 1 ;; ' (v, q) <- uleb c p e ;; Ok (f v, q)) (fun r => p <= snd r <= e)).
    { intro f. eapply safe_bind; [apply ST|]. intros _ _. eapply safe_bind; [apply uleb_safe; lia|]. intros [v q] [V Q]. sf. lia. }
    assert (PL : forall s' : lstate, safe (_ <- std_len c h op 0 ;; Ok (s', p)) (fun r => p <= snd r <= e)) by (intro s'; eapply safe_bind; [apply ST|]; intros _ _; sf; lia).
    destruct (op =? 1); [eapply safe_bind; [apply ST|]; intros _ _; eapply safe_bind; [apply line_safe|]; intros s' _; sf; lia|].
    destruct (op =? 2); [apply (UL (fun v => advance_pc h s (u32 v)))|].
    destruct (op =? 3).
    { eapply safe_bind; [apply ST|]. intros _ _. destruct (e <=? p) eqn:L; [exact Logic.I|]. destruct (sleb_any mem p e B ltac:(lia) ltac:(lia)) as (v & q & G & Q & QE & _). fold mem. rewrite G. cbn [obind]. sf. lia. }
    destruct (op =? 4); [apply (UL (fun v => set_file s (u32 v)))|]. destruct (op =? 5); [apply (UL (fun v => set_col s (u32 v)))|].
    destruct (op =? 6); [apply PL|]. destruct (op =? 7); [apply PL|].
    destruct (op =? 8); [eapply safe_bind; [apply ST|]; intros _ _; destruct (g_range h =? 0); [exact Logic.I|sf; lia]|].
    destruct (op =? 9); [eapply safe_bind; [apply ST|]; intros _ _; destruct (e - p <? 2) eqn:L; [exact Logic.I|]; eapply safe_bind; [apply rd_safe; fold mem; lia|]; intros v _; sf; lia|].
    destruct (op =? 10); [apply PL|]. destruct (op =? 11); [apply PL|]. apply (UL (fun v => set_isa s (u32 v))).
  Qed.
  Lemma step_safe : forall h s p, hdr_in h -> 0 <= p < e -> safe (step c h s p e) (fun r => p < snd r <= e).
  Proof.
    intros h s p H P. destruct (rm_end _ _ R) as [E0 E1]. fold mem in E1. unfold step. eapply safe_bind; [apply byte_safe; lia|]. intros op O. cbn beta in O. cbn zeta. destruct (g_opbase h <=? op) eqn:OB.
    - destruct (g_range h =? 0); [exact Logic.I|]. eapply safe_bind; [apply line_safe|]. intros s2 _. sf. lia.
    - destruct (op =? 0) eqn:O0; [eapply safe_impl; [apply extended_safe; [exact H|lia]|]; intros; sf; lia|]. destruct (op <=? 12) eqn:O12; [eapply safe_impl; [apply standard_safe; [exact H|lia..]|]; intros; sf; lia|].
      destruct H as (H0 & H1 & H2). eapply safe_bind; [apply byte_safe; lia|]. intros n N. cbn beta in N. eapply safe_bind; [apply skip_safe; lia|]. intros q Q. sf. lia.
  Qed.
  Lemma run_safe : forall h, hdr_in h -> forall fuel s p, 0 <= p -> (Z.to_nat (e - p) <= fuel)%nat -> safe (run fuel c h s p e) (fun _ => True).
  Proof.
    intros h H. induction fuel as [|k IH]; intros s p P F; cbn [run]; destruct (e <=? p) eqn:L; try exact Logic.I; [lia|]. eapply safe_bind; [apply step_safe; [exact H|lia]|]. intros [s' q] Q. cbn [snd] in Q. apply IH; lia.
  Qed.
  Lemma dirs_old_safe : forall fuel p, 0 <= p <= e -> (Z.to_nat (e + 1 - p) <= fuel)%nat -> safe (dirs_old fuel c p e) (fun r => p < snd r <= e + 1).
  Proof.
    destruct (rm_end _ _ R) as [E0 E1]. fold mem in E1. induction fuel as [|k IH]; intros p P F; [lia|]. cbn [dirs_old]. fold mem. unfold CfiModel.byte_at. destruct (Base.znth_in _ mem p ltac:(lia)) as [x X]. rewrite X. cbn [obind]. destruct (x =? 0) eqn:X0; [sf; lia|].
    eapply safe_bind; [apply memchr_safe; lia|]. intros [q|] Q; [|exact Logic.I]. eapply safe_bind; [apply (IH (q + 1)); lia|]. intros [l z] Z0. sf. lia.
  Qed.
  Lemma files_old_safe : forall dirs fuel p fs, 0 <= p <= e -> (Z.to_nat (e + 1 - p) <= fuel)%nat -> safe (files_old fuel c dirs p e fs) (fun r => p < snd r <= e + 1).
  Proof.
    destruct (rm_end _ _ R) as [E0 E1]. fold mem in E1. intros dirs. induction fuel as [|k IH]; intros p fs P F; [lia|]. cbn [files_old]. fold mem. eapply safe_bind; [apply byte_safe; lia|]. intros x X. cbn beta in X. destruct (x =? 0) eqn:X0; [sf; lia|].
    eapply safe_bind; [apply file_safe; lia|]. intros [f q] Q. cbn [snd] in Q. eapply safe_impl; [apply (IH q); lia|]. intros; sf; lia.
  Qed.
  Lemma tables_old_safe : forall p, 0 <= p <= e -> safe (tables_old c p e) (fun r => p < snd r <= e + 1).
  Proof.
    intros p P. destruct (rm_end _ _ R) as [E0 E1]. fold mem in E1. unfold tables_old. eapply safe_bind; [apply dirs_old_safe; [lia|fold mem; unfold zlen in *; lia]|]. intros [ds q] Q. cbn [snd] in Q. destruct (e <=? q) eqn:L; [exact Logic.I|].
    eapply safe_bind; [apply files_old_safe; [lia|fold mem; unfold zlen in *; lia]|]. intros [fs z] Z0. sf. lia.
  Qed.
  (* version 5 *)
  Lemma formats_safe : forall n p, 0 <= p <= e -> safe (formats c n p e) (fun r => p <= snd r <= e /\ length (fst r) = n /\ Forall (fun x => valid_user_form (snd x) = true) (fst r)).
  Proof.
    pose proof (rm_small _ _ R) as SM. destruct (rm_end _ _ R) as [E0 E1]. fold mem in E1, SM. induction n as [|n IH]; intros p P; cbn [formats]; [cbn; repeat split; try lia; constructor|]. fold mem. rewrite u64_small by lia. destruct (e - p <? 1) eqn:L; [exact Logic.I|]. eapply safe_bind; [apply leb_safe; lia|]. intros [d p1] [D Q1]. sf.
    rewrite u64_small by lia. destruct (e - p1 <? 1) eqn:L1; [exact Logic.I|]. eapply safe_bind; [apply leb_safe; lia|]. intros [f p2] [FF Q2]. sf. destruct (valid_user_form (u16 f)) eqn:VF; [|exact Logic.I]. cbn [negb].
    eapply safe_bind; [apply (IH p2); lia|]. intros [l z] (Z1 & Z2 & Z3). cbn in *. repeat split; try lia. constructor; [exact VF|exact Z3].
  Qed.
  Section U.
    Variables (start osize : Z).
    Hypothesis OS : osize = 4 \/ osize = 8.
    Let u := fake_cu c start e osize.
    Lemma val_len_safe : forall f p, valid_user_form f = true -> 0 <= p <= e -> safe (val_len u f p) (fun n => 0 <= n <= e - p).
    Proof.
      intros f p VF P. destruct (rm_end _ _ R) as [E0 E1]. pose proof (rm_small _ _ R) as SM. fold mem in E1, SM. unfold val_len. cbn [form_val_len]. change (u_endp u) with e. change (u_mem u) with mem. change (u_fle u) with (n_fle c). change (u_osize u) with osize. change (u_asize u) with (n_asize c). rewrite u64_small by lia.
      assert (CK : forall n, 0 <= n -> safe (if e - p <? n then Err DWARF_E_INVALID_DWARF else Ok n) (fun n => 0 <= n <= e - p)) by (intros n N; destruct (e - p <? n) eqn:L; [exact Logic.I|sf; lia]).
      assert (RD : forall n k, (n = 1 \/ n = 2 \/ n = 4) -> (forall v, 0 <= v -> 0 <= k v) -> safe (if e - p <? n then Err DWARF_E_INVALID_DWARF else v <- rd (n_fle c) mem p n ;; (if e - p <? k v then Err DWARF_E_INVALID_DWARF else Ok (k v))) (fun n => 0 <= n <= e - p)).
      { intros n k N K. destruct (e - p <? n) eqn:L; [exact Logic.I|]. rewrite rd_in by lia. cbn [obind]. apply CK, K. pose proof (fval_bound (n_fle c) (zsub mem p n) (bytes_ok_part _ _ _ B)). lia. }
      assert (LB : forall k, (forall v q, 0 <= v -> p < q -> 0 <= k v q) -> safe (' (v, q) <- get_uleb128 mem p e ;; (if e - p <? k v q then Err DWARF_E_INVALID_DWARF else Ok (k v q))) (fun n => 0 <= n <= e - p)).
      { intros k K. destruct (uleb_any mem p e B ltac:(lia) ltac:(lia)) as (v & q & -> & V & Q & _). cbn [obind]. apply CK, K; lia. }
      unfold valid_user_form in VF. cbn [existsb] in VF. repeat rewrite orb_true_iff in VF. rewrite !Z.eqb_eq in VF.
      assert (U32 : forall v, 0 <= v -> 0 <= u32 (v + 4)) by (intros v V; unfold u32; apply Z.mod_pos_bound; lia).
      assert (MC : safe (r <- memchr0 (S (length mem)) mem p (e - p) ;; match r with None => Err DWARF_E_INVALID_DWARF | Some z => if e - p <? z - p + 1 then Err DWARF_E_INVALID_DWARF else Ok (z - p + 1) end) (fun n => 0 <= n <= e - p)).
      { eapply safe_bind; [apply memchr0_safe; [lia|lia|unfold zlen in *; lia]|]. intros [z|] ZZ; [|exact Logic.I]. apply CK. lia. }
      change size_form_lengths with 45. repeat (destruct VF as [VF|VF]; [subst f; cbn -[Z.sub Z.add rd get_uleb128 memchr0]; first [apply CK; lia | apply (RD 1 (fun v => v + 1)); [lia|lia] | apply (RD 2 (fun v => v + 2)); [lia|lia] | apply (RD 4 (fun v => u32 (v + 4))); [lia|exact U32]
         | apply (LB (fun v q => u64 (v + (q - p)))); intros v q V Q; unfold u64; apply Z.mod_pos_bound; lia | apply (LB (fun v q => q - p)); intros; lia | exact MC ]|]). discriminate.
    Qed.
    Lemma index_safe : forall p b n, 0 <= p -> n = 0 \/ n = 1 \/ n = 2 \/ n = 3 \/ n = 4 -> safe (index_value u p b n) (fun _ => True).
    Proof.
      intros p b n P N. destruct (rm_end _ _ R) as [E0 E1]. fold mem in E1. unfold index_value. change (u_endp u) with e. change (u_mem u) with mem. destruct b.
      - destruct (e <=? p) eqn:L; [exact Logic.I|]. eapply safe_bind; [apply leb_safe; lia|]. intros [v q] _. exact Logic.I.
      - unfold before_end. change (u_endp u) with e. destruct (negb (e - n <=? p)) eqn:L; [|exact Logic.I]. apply rd_safe; [lia|change (u_mem u) with mem; lia].
    Qed.
    (* where a string can be read from *)
    Definition str_in (s : str_at) : Prop := match s with InUnit q => 0 <= q <= e | InStr o => exists b, n_str c = Some b /\ 0 <= o < zlen b | InLineStr o => exists b, n_lstr c = Some b /\ 0 <= o < zlen b end.
    Lemma read_off_safe : forall p b, 0 <= p -> safe (read_offset (n_fle c) mem p osize (Some b) 1) (fun o => 0 <= o < zlen b).
    Proof.
      intros p b P. unfold read_offset, read_address, in_section. destruct (negb _) eqn:I; [|exact Logic.I]. replace (if osize =? 4 then 4 else 8) with osize by (destruct OS as [-> | ->]; reflexivity). rewrite rd_in by lia. cbn [obind]. unfold offset_in_section. pose proof (fval_bound (n_fle c) (zsub mem p osize) (bytes_ok_part _ _ _ B)) as [V _].
      match goal with |- context [if ?x then _ else _] => destruct x eqn:X end; cbn [obind]; [exact Logic.I|]. sf. lia.
    Qed.
    Lemma formstring_safe : forall f p, 0 <= p <= e -> safe (formstring u (Attr 3 f p []) (n_str c) (n_lstr c) (n_stro c) (Some 0)) str_in.
    Proof.
      intros f p P. unfold formstring. cbn [a_form a_valp]. change (u_mem u) with mem. change (u_fle u) with (n_fle c). change (u_osize u) with osize. destruct (f =? FORM_string); [exact P|]. destruct ((f =? FORM_GNU_strp_alt) || (f =? FORM_strp_sup)); [exact Logic.I|].
      destruct (f =? FORM_line_strp). { destruct (n_lstr c) as [b|] eqn:LS; [|exact Logic.I]. eapply safe_bind; [apply read_off_safe; lia|]. intros o O. cbn. eauto. }
      destruct (n_str c) as [b|] eqn:SS; [|exact Logic.I]. destruct (f =? FORM_strp). { eapply safe_bind; [apply read_off_safe; lia|]. intros o O. cbn. eauto. }
      eapply safe_bind with (P := fun _ => True).
      { repeat (match goal with |- safe (if ?x then _ else _) _ => destruct x end; [apply index_safe; lia|]). exact Logic.I. }
      intros i _. rewrite (rm_stro _ _ R). exact Logic.I.
    Qed.
    Lemma formudata_safe : forall f p, valid_user_form f = true -> 0 <= p <= e -> safe (formudata u (Attr 58 f p []) true) (fun _ => True).
    Proof.
      intros f p VF P. destruct (rm_end _ _ R) as [E0 E1]. fold mem in E1. unfold formudata. cbn [a_form a_valp]. change (u_mem u) with mem. change (u_fle u) with (n_fle c). change (u_endp u) with e.
      assert (G : forall n, 0 <= n -> safe (if in_unit u p n then rd (n_fle c) mem p n else Err DWARF_E_INVALID_DWARF) (fun _ => True)) by (intros n N; unfold in_unit; change (u_endp u) with e; destruct (e <? p + n) eqn:L; [exact Logic.I|]; cbn [negb]; apply rd_safe; lia).
      assert (RA : forall n, n = 4 \/ n = 8 -> safe (read_address (n_fle c) mem p n) (fun _ => True)) by (intros n N; destruct (read_address_cases (n_fle c) mem p n N) as [(v & -> & _)| ->]; exact Logic.I).
      assert (UL : safe (if in_unit u p 1 then ' (v, _) <- get_uleb128 mem p e ;; Ok v else Err DWARF_E_INVALID_DWARF) (fun _ => True)) by (unfold in_unit; change (u_endp u) with e; destruct (e <? p + 1) eqn:L; [exact Logic.I|]; cbn [negb]; eapply safe_bind; [apply leb_safe; lia|]; intros [v q] _; exact Logic.I).
      assert (SL : safe (if in_unit u p 1 then ' (v, _) <- get_sleb128 mem p e ;; Ok (u64 v) else Err DWARF_E_INVALID_DWARF) (fun _ => True)) by (unfold in_unit; change (u_endp u) with e; destruct (e <? p + 1) eqn:L; [exact Logic.I|]; cbn [negb]; destruct (sleb_any mem p e B ltac:(lia) ltac:(lia)) as (v & q & -> & _); exact Logic.I).
      unfold valid_user_form in VF. cbn [existsb] in VF. repeat rewrite orb_true_iff in VF. rewrite !Z.eqb_eq in VF.
      repeat (destruct VF as [VF|VF]; [subst f; cbn -[rd get_uleb128 get_sleb128 in_unit read_address]; first [exact Logic.I | apply G; lia | apply RA; lia | exact UL | exact SL]|]). discriminate.
    Qed.
    Lemma entry5_safe : forall l m path idx p nm dr, Forall (fun x => valid_user_form (snd x) = true) l -> 0 <= p <= e -> (match nm with Some s => str_in s | None => True end) ->
      safe (entry5 c u l m path idx p e nm dr) (fun r => p <= snd r <= e /\ match fst (fst r) with Some s => str_in s | None => True end).
    Proof.
      pose proof (rm_small _ _ R) as SM. destruct (rm_end _ _ R) as [E0 E1]. fold mem in E1, SM. induction l as [|[t f] l IH]; intros m path idx p nm dr F P NM; cbn [entry5]; [cbn; split; [lia|exact NM]|]. apply Forall_cons_iff in F as [VF F]. cbn [snd] in VF.
      eapply safe_bind with (P := fun n => match n with Some s => str_in s | None => True end).
      { match goal with |- safe (if ?x then _ else _) _ => destruct x end; [|exact NM]. pose proof (formstring_safe f p P) as FS. destruct (formstring u _ _ _ _ _); cbn in *; auto. }
      intros nm' NM'. eapply safe_bind with (P := fun _ => True).
      { match goal with |- safe (if ?x then _ else _) _ => destruct x end; [|exact Logic.I]. pose proof (formudata_safe f p VF P) as FS. destruct (formudata u _ _); cbn in *; auto. }
      intros dr' _. pose proof (val_len_safe f p VF P) as VL. destruct (val_len u f p) as [n| | |]; try contradiction; [|exact Logic.I]. cbn in VL. rewrite u64_small by lia. destruct (e - p <? n) eqn:L; [exact Logic.I|].
      eapply safe_impl; [apply (IH (S m) path idx (p + n) nm' dr' F); [lia|exact NM']|]. intros r [R1 R2]. split; [lia|exact R2].
    Qed.
    Lemma scan_safe : forall (m : bytes) p z, 0 <= p <= z -> znth m z = Some 0 -> safe (c_string m p) (fun _ => True).
    Proof.
      intros m p z P Z0. unfold c_string. assert (ZL : z < zlen m) by (pose proof (SegProof.znth_in _ _ _ _ Z0); lia).
      assert (G : forall k p n, 0 <= p <= z -> zlen m + 1 - p <= n -> (Z.to_nat (z - p) <= k)%nat -> exists q, memchr0 k m p n = Ok (Some q)).
      { clear p P. induction k as [|k IH]; intros p n P N K; cbn [memchr0]; replace (n <=? 0) with false by lia.
        - replace p with z by lia. rewrite Z0. cbn. eauto.
        - destruct (Base.znth_in _ m p ltac:(lia)) as [x X]. rewrite X. destruct (x =? 0) eqn:X0; [eauto|]. apply IH; try lia. destruct (Z.eq_dec p z) as [->|]; [rewrite Z0 in X; injection X as <-; discriminate|lia]. }
      destruct (G (S (length m)) p (zlen m + 1 - p) P ltac:(lia) ltac:(unfold zlen in ZL; lia)) as [q ->]. exact Logic.I.
    Qed.
    Lemma str_safe : forall s, str_in s -> safe (str_bytes c s) (fun _ => True).
    Proof.
      intros [q|o|o] S; cbn [str_in str_bytes] in *.
      - apply (scan_safe _ q e S (rm_zero _ _ R)).
      - destruct S as (b & BE & O). pose proof (rm_str _ _ R) as X. rewrite BE in *. destruct X as [_ X]. apply (scan_safe b o (zlen b - 1)); [lia|apply X; lia].
      - destruct S as (b & BE & O). pose proof (rm_lstr _ _ R) as X. rewrite BE in *. destruct X as [_ X]. apply (scan_safe b o (zlen b - 1)); [lia|apply X; lia].
    Qed.
    Lemma dirs5_safe : forall l n p, Forall (fun x => valid_user_form (snd x) = true) l -> 0 <= p <= e -> safe (dirs5 n c u l p e) (fun r => p <= snd r <= e).
    Proof.
      intros l. induction n as [|n IH]; intros p F P; cbn [dirs5]; [sf; lia|]. eapply safe_bind; [apply entry5_safe; [exact F|exact P|exact Logic.I]|]. intros [[nm dr] q] [Q NM]. sf. destruct nm as [s|]; [|exact Logic.I].
      eapply safe_bind; [apply str_safe, NM|]. intros d _. eapply safe_bind; [apply (IH q F); lia|]. intros [ds z] Z0. sf. lia.
    Qed.
    Lemma files5_safe : forall l dirs n p, Forall (fun x => valid_user_form (snd x) = true) l -> 0 <= p <= e -> safe (files5 n c u l dirs p e) (fun r => p <= snd r <= e).
    Proof.
      intros l dirs. induction n as [|n IH]; intros p F P; cbn [files5]; [sf; lia|]. eapply safe_bind; [apply entry5_safe; [exact F|exact P|exact Logic.I]|]. intros [[nm dr] q] [Q NM]. sf. destruct nm as [s|]; [|exact Logic.I]. destruct dr as [d|]; [|exact Logic.I]. destruct (d =? two64 - 1); [exact Logic.I|].
      eapply safe_bind; [apply str_safe, NM|]. intros fn _. destruct (znth dirs d); [|exact Logic.I]. eapply safe_bind; [apply (IH q F); lia|]. intros [ds z] Z0. sf. lia.
    Qed.
  End U.
  Lemma tables5_safe : forall osize p, osize = 4 \/ osize = 8 -> 0 <= p <= e -> safe (tables5 c osize p e) (fun r => p < snd r <= e + 1).
  Proof.
    intros osize p OS P. pose proof (rm_small _ _ R) as SM. destruct (rm_end _ _ R) as [E0 E1]. fold mem in E1, SM. unfold tables5. fold mem. rewrite u64_small by lia. destruct (e - p <? 1) eqn:L1; [exact Logic.I|]. eapply safe_bind; [apply byte_safe; lia|]. intros nf NF. cbn beta in NF.
    eapply safe_bind; [apply formats_safe; lia|]. intros [fs q] (Q & _ & F). sf. destruct (_ && _); [exact Logic.I|]. rewrite u64_small by lia. destruct (e - q <? 1) eqn:L2; [exact Logic.I|]. eapply safe_bind; [apply leb_safe; lia|]. intros [nd q1] [ND Q1]. sf.
    destruct (_ && _); [exact Logic.I|]. destruct (_ && _); [exact Logic.I|]. eapply safe_bind; [apply (dirs5_safe p osize OS fs _ q1 F); lia|]. intros [dirs q2] Q2. cbn [snd] in Q2. rewrite u64_small by lia. destruct (e - q2 <? 1) eqn:L3; [exact Logic.I|]. eapply safe_bind; [apply byte_safe; lia|]. intros nf2 NF2. cbn beta in NF2.
    eapply safe_bind; [apply formats_safe; lia|]. intros [fs2 q3] (Q3 & _ & F2). sf. destruct (_ && _); [exact Logic.I|].
    eapply safe_bind with (P := fun r => (0 <= fst r < two64) /\ (q3 < snd r <= e \/ snd r = e + 1 /\ fst r = 0)).
    { destruct (Z.eq_dec q3 e) as [->|]; [|eapply safe_impl; [apply leb_safe; lia|]; intros r [R1 R2]; split; [exact R1|left; exact R2]]. 
      unfold get_uleb128, uleb_step. fold mem. rewrite (rm_zero _ _ R : znth mem e = Some 0). cbn. split; [lia|]. right. split; reflexivity. }
    intros [nfl q4] [NFL Q4]. sf. destruct (_ && _); [exact Logic.I|]. destruct (_ && _); [exact Logic.I|]. destruct Q4 as [Q4|[-> ->]].
    - eapply safe_bind; [apply (files5_safe p osize OS fs2 dirs _ q4 F2); lia|]. intros [fl z] Z0. sf. lia.
    - change (Z.to_nat 0) with O. cbn [files5 obind safe snd]. lia.
  Qed.
End Safe.

(* The end of the unit at p, from its length field *)
Definition unit_end (c : lctx) (p : Z) : option Z :=
  if zlen (n_mem c) <? p + 4 then None
  else let l := fval (n_fle c) (zsub (n_mem c) p 4) in
       if l =? 4294967295 then if zlen (n_mem c) <? p + 12 then None else Some (p + 12 + fval (n_fle c) (zsub (n_mem c) (p + 4) 8)) else Some (p + 4 + l).
Lemma header_safe : forall c p, bytes_ok (n_mem c) -> 0 <= p -> (forall e, unit_end c p = Some e -> e <= zlen (n_mem c) -> room c e) ->
  safe (read_header c p) (fun r => let '(h, _, q, e) := r in room c e /\ hdr_in e h /\ 0 <= q <= zlen (n_mem c)).
Proof.
  intros c p B P H. unfold read_header. set (mem := n_mem c) in *. unfold unit_end in H. fold mem in H. destruct (zlen mem <? p + 4) eqn:L4; [exact Logic.I|]. rewrite rd_in by lia. cbn [obind]. cbn zeta in H.
  eapply safe_bind with (P := fun r => let '(len, p1, osize) := r in (osize = 4 \/ osize = 8) /\ 0 <= len /\ p <= p1 <= zlen mem /\ (p1 + len <= zlen mem -> room c (p1 + len))).
  { destruct (fval (n_fle c) (zsub mem p 4) =? 4294967295) eqn:L64.
    - destruct (zlen mem <? p + 12) eqn:L12; [exact Logic.I|]. rewrite rd_in by lia. cbn [obind safe]. pose proof (fval_bound (n_fle c) (zsub mem (p + 4) 8) (bytes_ok_part _ _ _ B)) as [V _]. split; [auto|]. split; [lia|]. split; [lia|]. intro X. apply H; [reflexivity|exact X].
    - cbn [safe]. pose proof (fval_bound (n_fle c) (zsub mem p 4) (bytes_ok_part _ _ _ B)) as [V _]. split; [auto|]. split; [lia|]. split; [lia|]. intro X. apply H; [reflexivity|exact X]. }
  clear H. intros [[len p1] osize] (OS & LN & P1 & RM). cbn beta iota zeta. destruct (zlen mem - p1 <? len) eqn:LL; [exact Logic.I|]. specialize (RM ltac:(lia)). remember (p1 + len) as e eqn:EE. destruct (rm_end _ _ RM) as [E0 E1]. pose proof (rm_small _ _ RM) as SM. fold mem in E1, SM.
  destruct (e - p1 <? 2) eqn:L2; [exact Logic.I|]. eapply safe_bind; [apply (rd_safe (n_fle c) mem); lia|]. intros ver _. destruct ((ver <? 2) || (5 <? ver)); [exact Logic.I|].
  eapply safe_bind with (P := fun q => p1 + 2 <= q <= e).
  { destruct (5 <=? ver); [|cbn [safe]; lia]. destruct (e - (p1 + 2) <? 2) eqn:L5; [exact Logic.I|]. eapply safe_bind; [apply (byte_safe c e RM); fold mem; lia|]. intros a _. eapply safe_bind; [apply (byte_safe c e RM); fold mem; lia|]. intros s _. destruct (_ || _); [exact Logic.I|]. cbn [safe]. lia. }
  intros p2 P2. cbn beta in P2. destruct (e - p2 <? osize) eqn:LO; [exact Logic.I|]. eapply safe_bind; [apply (rd_safe (n_fle c) mem); lia|]. intros hl _. eapply safe_bind; [apply (byte_safe c e RM); fold mem; lia|]. intros mn _.
  eapply safe_bind with (P := fun r => p2 + osize + 1 <= snd r <= e + 2 /\ (snd r <= zlen mem - 4)).
  { destruct (4 <=? ver); [|cbn [safe snd]; lia]. destruct (_ <? 1) eqn:LX; [exact Logic.I|]. eapply safe_bind; [apply (byte_safe c e RM); fold mem; lia|]. intros m _. destruct (m =? 0); [exact Logic.I|]. cbn [safe snd].
    split; [|lia]. split; lia. }
  intros [mo p3] [P3 P3']. cbn [snd] in P3, P3'. destruct (u64 (e - p3) <? 4) eqn:L44; [exact Logic.I|].
  eapply safe_bind; [apply (byte_safe c e RM); fold mem; lia|]. intros st _. eapply safe_bind; [apply (byte_safe c e RM); fold mem; lia|]. intros bs _. eapply safe_bind; [apply (byte_safe c e RM); fold mem; lia|]. intros rg _. eapply safe_bind; [apply (byte_safe c e RM); fold mem; lia|]. intros ob OB. cbn beta in OB.
  destruct (e - (p3 + 4) <? ob - 1) eqn:LB; [exact Logic.I|].
  eapply safe_bind with (P := fun r => p3 < snd r <= e + 1).
  { destruct (5 <=? ver); [eapply safe_impl; [apply (tables5_safe c e RM); [exact OS|lia]|]|eapply safe_impl; [apply (tables_old_safe c e RM); lia|]]; intros [[ds fs] q] Q; cbn [snd] in *; lia. }
  intros [[ds fs] q] Q. cbn [snd] in Q. destruct (negb _); [exact Logic.I|]. cbn [safe]. split; [exact RM|]. split; [|lia]. unfold hdr_in. cbn [g_std g_opbase]. lia.
Qed.
Lemma srclines_safe : forall qs c p, bytes_ok (n_mem c) -> 0 <= p -> (forall e, unit_end c p = Some e -> e <= zlen (n_mem c) -> room c e) -> safe (read_srclines qs c p) (fun _ => True).
Proof.
  intros qs c p B P H. unfold read_srclines. eapply safe_bind; [apply header_safe; assumption|]. intros [[[h fs] q] e] (RM & HI & Q). cbn beta iota.
  destruct (rm_end _ _ RM) as [E0 E1]. eapply safe_bind; [apply (run_safe c e RM h HI); [lia|unfold zlen in E1; lia]|]. intros s _. exact Logic.I.
Qed.
