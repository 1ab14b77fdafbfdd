(* Proofs about archives. *)
From Verif Require Import Base LebModel ElfErr HashModel DwModel SegProof Slice CfiSafe ArModel ArSpec.
Require Import ZArith List Lia Bool ZifyBool. Import ListNotations. Open Scope Z_scope.

(* ---- numbers ---- *)
Definition stops (b : Z) : Prop := b = 96 \/ b = 0.
Lemma byte_ok : forall mem p, 0 <= p < zlen mem -> exists b, byte_at mem p = Ok b /\ znth mem p = Some b.
Proof. intros mem p P. unfold byte_at. destruct (Base.znth_in _ mem p P) as [x X]. rewrite X. eauto. Qed.
Lemma skip_stop : forall mem q b, znth mem q = Some b -> stops b -> forall fuel p, 0 <= p <= q -> (Z.to_nat (q - p) <= fuel)%nat -> exists p' c, skip_space fuel mem p = Ok p' /\ p <= p' <= q /\ znth mem p' = Some c.
Proof.
  intros mem q b Q S. assert (QL : q < zlen mem) by (pose proof (SegProof.znth_in _ _ _ _ Q); lia). induction fuel as [|k IH]; intros p P F; cbn [skip_space]; destruct (byte_ok mem p ltac:(lia)) as (c & -> & C); cbn [obind].
  - replace p with q in * by lia. rewrite Q in C. injection C as <-. replace (isspace b) with false by (destruct S as [-> | ->]; reflexivity). exists q, b. repeat split; try lia; assumption.
  - destruct (isspace c) eqn:I; [|exists p, c; repeat split; try lia; assumption]. destruct (Z.eq_dec p q) as [->|N]; [rewrite Q in C; injection C as <-; destruct S as [-> | ->]; discriminate|]. destruct (IH (p + 1)) as (p' & c' & E & L & Z0); [lia..|]. exists p', c'. repeat split; try lia; assumption.
Qed.
Lemma digits_stop : forall mem q b, znth mem q = Some b -> stops b -> forall fuel p acc, 0 <= p <= q -> 0 <= acc -> (Z.to_nat (q - p) <= fuel)%nat -> exists v, digits fuel mem p acc = Ok v /\ 0 <= v.
Proof.
  intros mem q b Q S. assert (QL : q < zlen mem) by (pose proof (SegProof.znth_in _ _ _ _ Q); lia). induction fuel as [|k IH]; intros p acc P A F; cbn [digits]; destruct (byte_ok mem p ltac:(lia)) as (c & -> & C); cbn [obind].
  - replace p with q in * by lia. rewrite Q in C. injection C as <-. replace (isdigit b) with false by (destruct S as [-> | ->]; reflexivity). eauto.
  - destruct (isdigit c) eqn:I; [|eauto]. destruct (Z.eq_dec p q) as [->|N]; [rewrite Q in C; injection C as <-; destruct S as [-> | ->]; discriminate|]. unfold isdigit in I. apply IH; lia.
Qed.
Lemma clamp_range : forall v, - two63 <= clamp v < two63.
Proof. intro v. unfold clamp. destruct (v <? - two63) eqn:A; [lia|]. destruct (two63 - 1 <? v) eqn:B; lia. Qed.
Lemma clamp_small : forall v, - two63 <= v < two63 -> clamp v = v.
Proof. intros v V. unfold clamp. replace (v <? - two63) with false by lia. replace (two63 - 1 <? v) with false by lia. reflexivity. Qed.
Lemma atol_stop : forall mem p q b, znth mem q = Some b -> stops b -> 0 <= p <= q -> exists v, atol mem p = Ok v /\ - two63 <= v < two63.
Proof.
  intros mem p q b Q S P. assert (QL : q < zlen mem) by (pose proof (SegProof.znth_in _ _ _ _ Q); lia). unfold atol. destruct (skip_stop mem q b Q S (length mem) p P) as (p' & c & E & L & C); [unfold zlen in QL; lia|]. rewrite E. cbn [obind]. unfold byte_at. rewrite C. cbn [obind].
  destruct (c =? 45) eqn:C45; [|destruct (c =? 43) eqn:C43].
  - destruct (Z.eq_dec p' q) as [->|N]; [rewrite Q in C; injection C as <-; destruct S as [-> | ->]; discriminate|]. destruct (digits_stop mem q b Q S (length mem) (p' + 1) 0) as (v & -> & V); [lia|lia|unfold zlen in QL; lia|]. cbn [obind]. eexists. split; [reflexivity|apply clamp_range].
  - destruct (Z.eq_dec p' q) as [->|N]; [rewrite Q in C; injection C as <-; destruct S as [-> | ->]; discriminate|]. destruct (digits_stop mem q b Q S (length mem) (p' + 1) 0) as (v & -> & V); [lia|lia|unfold zlen in QL; lia|]. cbn [obind]. eexists. split; [reflexivity|apply clamp_range].
  - destruct (digits_stop mem q b Q S (length mem) p' 0) as (v & -> & V); [lia|lia|unfold zlen in QL; lia|]. cbn [obind]. eexists. split; [reflexivity|apply clamp_range].
Qed.
Lemma zsub_len : forall (m : bytes) p n, 0 <= p -> 0 <= n -> p + n <= zlen m -> zlen (zsub m p n) = n.
Proof. intros. apply zsub_length; assumption. Qed.
Lemma field_stop : forall mem p n q, 0 <= p -> 0 < n -> p + n <= q -> znth mem q = Some 96 -> exists v, int_field mem p n = Ok v /\ - two63 <= v < two63.
Proof.
  intros mem p n q P N L Q. assert (QL : q < zlen mem) by (pose proof (SegProof.znth_in _ _ _ _ Q); lia). unfold int_field. destruct (byte_ok mem (p + n - 1) ltac:(lia)) as (c & -> & C). cbn [obind]. destruct (c =? 32).
  - apply (atol_stop mem p q 96 Q); [left; reflexivity|lia].
  - apply (atol_stop _ 0 n 0); [|right; reflexivity|lia]. rewrite znth_app_r by (rewrite zsub_len; lia). rewrite zsub_len by lia. replace (n - n) with 0 by lia. reflexivity.
Qed.
Lemma u64_small : forall v, 0 <= v < two64 -> u64 v = v.
Proof. intros v V. unfold u64. apply Z.mod_small. exact V. Qed.
Lemma s64_small : forall v, - two63 <= v < two63 -> s64 v = v.
Proof. intros v V. unfold s64. cbv zeta. destruct (Z_lt_le_dec v 0). - replace (v mod two64) with (v + two64) by (apply (Z.mod_unique v two64 (-1)); lia). destruct (v + two64 <? two63) eqn:E; lia. - rewrite Z.mod_small by lia. destruct (v <? two63) eqn:E; lia. Qed.
Lemma s64_range : forall v, - two63 <= s64 v < two63.
Proof. intro v. unfold s64. cbv zeta. pose proof (Z.mod_pos_bound v two64 ltac:(lia)). destruct (v mod two64 <? two63) eqn:E; lia. Qed.
Lemma even_up_small : forall n, 0 <= n < two63 -> n <= even_up n <= n + 1 /\ even_up n = n + n mod 2.
Proof.
  intros n N. unfold even_up. rewrite (u64_small (n + 1)) by lia. change (two64 - 2) with (u64 (- 2 ^ 1)). rewrite land_neg_pow2 by lia. change (2 ^ 1) with 2.
  pose proof (Z.mod_pos_bound n 2 ltac:(lia)). assert (H2 : n mod 2 = 0 \/ n mod 2 = 1) by lia. pose proof (Z.div_mod n 2 ltac:(lia)).
  assert (E : (n + 1) mod 2 = 1 - n mod 2) by (destruct H2 as [H2|H2]; rewrite H2 in *; symmetry; [apply (Z.mod_unique _ _ (n / 2))|apply (Z.mod_unique _ _ (n / 2 + 1))]; lia). lia.
Qed.

(* ---- one header ---- *)
(* The archive lies in the file, and a file that is not mapped is a whole archive. *)
Definition arc_ok (r : arc) : Prop := 0 <= r_so r /\ 8 <= r_mx r /\ r_so r + r_mx r <= zlen (r_mem r) /\ zlen (r_mem r) < two63 - 1 /\ (r_mapped r = false -> r_so r + r_mx r = zlen (r_mem r)).
Definition ends (r : arc) : Z := r_so r + r_mx r.
Definition long_ok (fuel : nat) (r : arc) (s : ast) : Prop := t_long s <> None \/ exists x, read_long_names fuel r = Ok x.
Lemma bytes_eqb_spec : forall a b, bytes_eqb a b = true <-> a = b.
Proof. intros a b. unfold bytes_eqb. destruct (list_eq_dec Z.eq_dec a b); split; intro; try assumption; try reflexivity; try discriminate; congruence. Qed.
Lemma bytes_eqb_neq : forall a b, bytes_eqb a b = false <-> a <> b.
Proof. intros a b. unfold bytes_eqb. destruct (list_eq_dec Z.eq_dec a b); split; intro; try assumption; try reflexivity; try discriminate; congruence. Qed.
Lemma magic_at : forall (mem : bytes) off, 0 <= off -> off + 60 <= zlen mem -> zsub mem (off + 58) 2 = [96; 10] -> znth mem (off + 58) = Some 96.
Proof.
  intros mem off O L M. assert (Z0 : znth (zsub mem (off + 58) 2) 0 = Some 96) by (rewrite M; reflexivity). rewrite znth_zsub in Z0 by lia. rewrite Z.add_0_r in Z0. exact Z0.
Qed.
(* the test that a header is in the file *)
Definition in_file (r : arc) (off : Z) : bool :=
  negb (if r_mapped r then (u64 (r_so r + r_mx r) <? u64 off) || (u64 (r_so r + r_mx r) - u64 off <? SZ_HDR) else negb (readable r off SZ_HDR)).
Lemma u64_neg : forall v, - two63 <= v < 0 -> two63 <= u64 v.
Proof. intros v V. unfold u64. replace (v mod two64) with (v + two64) by (apply (Z.mod_unique v two64 (-1)); lia). lia. Qed.
Lemma in_file_spec : forall r off, arc_ok r -> - two63 <= off < two63 -> in_file r off = true <-> 0 <= off /\ off + 60 <= ends r.
Proof.
  intros r off (A & B & C & D & E) O. unfold in_file, ends. rewrite u64_small by lia. destruct (r_mapped r).
  - destruct (Z_lt_le_dec off 0) as [N|N]; [pose proof (u64_neg off ltac:(lia)); split; intro; lia|]. rewrite u64_small by lia. unfold SZ_HDR. split; intro; lia.
  - specialize (E eq_refl). unfold readable, SZ_HDR. split; intro; lia.
Qed.
Lemma name_safe : forall fuel r s off, arc_ok r -> long_ok fuel r s -> 0 <= off -> off + 60 <= ends r -> znth (r_mem r) (off + 58) = Some 96 -> exists n l, name_of fuel r off (t_long s) = Ok (n, l) /\ (t_long s <> None -> l = t_long s) /\ (l <> None \/ l = t_long s \/ read_long_names fuel r = Ok l).
Proof.
  intros fuel r s off (A & B & C & D & E) LO O L M. unfold ends in L. unfold name_of. destruct (byte_ok (r_mem r) off ltac:(lia)) as (c0 & -> & C0). destruct (byte_ok (r_mem r) (off + 1) ltac:(lia)) as (c1 & -> & C1). cbn [obind].
  destruct (c0 =? 47); [|do 2 eexists; split; [reflexivity|]; auto]. destruct (_ && _); [do 2 eexists; split; [reflexivity|]; auto|]. destruct (_ && _); [do 2 eexists; split; [reflexivity|]; auto|]. destruct (_ && _); [do 2 eexists; split; [reflexivity|]; auto|].
  destruct (isdigit c1) eqn:DG; [|do 2 eexists; split; [reflexivity|]; auto].
  destruct (atol_stop (r_mem r) (off + 1) (off + 58) 96 M (or_introl eq_refl) ltac:(lia)) as (i & AI & _).
  destruct (t_long s) as [t|] eqn:TL; cbn [obind].
  - rewrite AI. cbn [obind]. destruct (_ <=? _); do 2 eexists; (split; [reflexivity|]); split; auto; left; discriminate.
  - destruct LO as [LO|[x LO]]; [congruence|]. rewrite LO. cbn [obind]. destruct x as [t|]; [|do 2 eexists; split; [reflexivity|]; split; [congruence|auto]]. rewrite AI. cbn [obind]. destruct (_ <=? _); do 2 eexists; (split; [reflexivity|]); split; try congruence; left; discriminate.
Qed.
(* a header read with success *)
Definition valid (r : arc) (s : ast) : Prop := h_name (t_hdr s) <> None /\ 0 <= t_off s /\ 0 <= h_size (t_hdr s) /\ t_off s + 60 + h_size (t_hdr s) <= ends r.
Lemma next_safe : forall fuel r s, arc_ok r -> long_ok fuel r s -> - two63 <= t_off s < two63 ->
  exists e s', next_arhdr fuel r s = Ok (e, s') /\ t_off s' = t_off s /\ long_ok fuel r s' /\ (e = 0 -> valid r s').
Proof.
  intros fuel r s OK LO OF. pose proof OK as (A & B & C & D & E). unfold next_arhdr. fold (in_file r (t_off s)). pose proof (in_file_spec r (t_off s) OK OF) as IF. unfold in_file in IF. rewrite negb_true_iff in IF.
  match goal with |- context [if ?x then Ok (ELF_E_RANGE, _) else _] => destruct x end; [exists ELF_E_RANGE, s; repeat split; auto; discriminate|]. destruct IF as [IF _]. specialize (IF eq_refl). destruct IF as [O L]. unfold ends in L.
  destruct (negb (bytes_eqb _ _)) eqn:MG; [exists ELF_E_ARCHIVE_FMAG, s; repeat split; auto; discriminate|]. rewrite negb_false_iff in MG. apply bytes_eqb_spec in MG. apply magic_at in MG; [|lia|lia].
  destruct (name_safe fuel r s (t_off s) OK LO O L MG) as (n & l & -> & LL & LX). cbn [obind].
  assert (LO' : forall h, long_ok fuel r (Ast (t_off s) h l)).
  { intro h. unfold long_ok. cbn [t_long]. destruct LO as [LO|LO]; [left; rewrite (LL LO); exact LO|right; exact LO]. }
  destruct n as [n|]; [|do 2 eexists; split; [reflexivity|]; repeat split; [apply LO'|discriminate..]].
  destruct (byte_ok (r_mem r) (t_off s + 48) ltac:(lia)) as (c & -> & CC). cbn [obind]. destruct (c =? 32); [do 2 eexists; split; [reflexivity|]; repeat split; [apply LO'|discriminate..]|].
  destruct (field_stop (r_mem r) (t_off s + 16) 12 (t_off s + 58)) as (v1 & -> & V1); [lia..|exact MG|]. destruct (field_stop (r_mem r) (t_off s + 28) 6 (t_off s + 58)) as (v2 & -> & V2); [lia..|exact MG|]. destruct (field_stop (r_mem r) (t_off s + 34) 6 (t_off s + 58)) as (v3 & -> & V3); [lia..|exact MG|].
  destruct (field_stop (r_mem r) (t_off s + 40) 8 (t_off s + 58)) as (v4 & -> & V4); [lia..|exact MG|]. destruct (field_stop (r_mem r) (t_off s + 48) 10 (t_off s + 58)) as (v5 & -> & V5); [lia..|exact MG|]. cbn [obind].
  destruct (v5 <? 0) eqn:NG; [do 2 eexists; split; [reflexivity|]; repeat split; [apply LO'|discriminate..]|]. do 2 eexists. split; [reflexivity|]. split; [reflexivity|]. split; [apply LO'|]. intros _. unfold valid, ends. cbn [t_off t_hdr h_name h_size]. unfold SZ_HDR in *.
  rewrite u64_small by lia. split; [discriminate|]. split; [lia|]. destruct (_ <? v5) eqn:MX; [rewrite s64_small by lia|]; lia.
Qed.
(* ---- the states a user can reach ---- *)
Inductive reach (fuel : nat) (r : arc) : ast -> Prop :=
| R_open : reach fuel r (ar_open r)
| R_next s b s' : reach fuel r s -> ar_next fuel r s = Ok (b, s') -> reach fuel r s'
| R_rand s o v s' : reach fuel r s -> 0 <= o < two63 - r_so r -> ar_rand fuel r s o = Ok (v, s') -> reach fuel r s'
| R_begin s m s' : reach fuel r s -> ar_begin fuel r s = Ok (Some m, s') -> reach fuel r s'
| R_hdr s h s' : reach fuel r s -> ar_gethdr fuel r s = Ok (Some h, s') -> reach fuel r s'.
Definition inv (fuel : nat) (r : arc) (s : ast) : Prop := - two63 <= t_off s < two63 /\ long_ok fuel r s /\ (h_name (t_hdr s) <> None -> valid r s).
Lemma next_inv : forall fuel r s, arc_ok r -> long_ok fuel r s -> exists b s', ar_next fuel r s = Ok (b, s') /\ inv fuel r s' /\ (b = true -> valid r s') /\ t_off s' = s64 (t_off s + SZ_HDR + even_up (h_size (t_hdr s))).
Proof.
  intros fuel r s OK LO. unfold ar_next. set (s1 := Ast _ _ _). assert (LO1 : long_ok fuel r s1) by exact LO. destruct (next_safe fuel r s1 OK LO1 (s64_range _)) as (e & s' & -> & T & L' & V). cbn [obind]. cbn [t_off] in T. destruct (e =? 0) eqn:E0.
  - exists true, s'. split; [reflexivity|]. split; [|split; [intros _; apply V; lia|exact T]]. split; [rewrite T; apply s64_range|]. split; [exact L'|]. intros _. apply V. lia.
  - eexists false, _. split; [reflexivity|]. split; [|split; [discriminate|exact T]]. split; [cbn [set_hdr t_off]; rewrite T; apply s64_range|]. split; [exact L'|]. intros H. cbn in H. congruence.
Qed.
Lemma reach_inv : forall fuel r s, arc_ok r -> (exists x, read_long_names fuel r = Ok x) -> reach fuel r s -> inv fuel r s.
Proof.
  intros fuel r s OK RL H. pose proof OK as (A & B & C & D & E). induction H as [|s b s' H IH N|s o v s' H IH O N|s m s' H IH N|s h s' H IH N].
  - split; [cbn; lia|]. split; [right; exact RL|]. intro X. cbn in X. congruence.
  - destruct IH as (I1 & I2 & I3). destruct (next_inv fuel r s OK I2) as (b' & s2 & E2 & I & _). rewrite E2 in N. injection N as <- <-. exact I.
  - destruct IH as (I1 & I2 & I3). unfold ar_rand in N. set (s1 := Ast _ _ _) in N. assert (LO1 : long_ok fuel r s1) by exact I2. destruct (next_safe fuel r s1 OK LO1 (s64_range _)) as (e & s2 & E2 & T & L' & V). rewrite E2 in N. cbn [obind] in N. cbn [t_off] in T. destruct (e =? 0) eqn:E0; injection N as <- <-.
    + split; [rewrite T; apply s64_range|]. split; [exact L'|]. intros _. apply V. lia.
    + split; [cbn [set_hdr t_off]; rewrite T; apply s64_range|]. split; [exact L'|]. intro X. cbn in X. congruence.
  - destruct IH as (I1 & I2 & I3). unfold ar_begin in N. cbv zeta in N. destruct (h_name (t_hdr s)) as [n|] eqn:HN; cbn [obind] in N.
    + cbn [Z.eqb negb] in N. destruct (_ =? _); [discriminate N|]. destruct (_ && _); [discriminate N|]. injection N as _ <-. split; [exact I1|]. split; [exact I2|]. intros _. apply I3. discriminate.
    + destruct (next_safe fuel r s OK I2 I1) as (e & s2 & E2 & T & L' & V). rewrite E2 in N. cbn [obind] in N. destruct (e =? 0) eqn:E0; cbn [negb] in N; [|discriminate N]. destruct (_ =? two64 - 1); [discriminate N|]. destruct (_ && _); [discriminate N|]. injection N as _ <-. split; [rewrite T; exact I1|]. split; [exact L'|]. intros _. apply V. lia.
  - destruct IH as (I1 & I2 & I3). unfold ar_gethdr in N. destruct (h_name (t_hdr s)) as [n|] eqn:HN; cbn [obind] in N.
    + injection N as _ <-. split; [exact I1|]. split; [exact I2|]. intros _. apply I3. discriminate.
    + destruct (next_safe fuel r s OK I2 I1) as (e & s2 & E2 & T & L' & V). rewrite E2 in N. cbn [obind] in N. destruct (e =? 0) eqn:E0.
      * injection N as _ <-. split; [rewrite T; exact I1|]. split; [exact L'|]. intros _. apply V. lia.
      * assert (I1' : - two63 <= t_off s2 < two63) by (rewrite T; exact I1). destruct (next_safe fuel r s2 OK L' I1') as (e3 & s3 & E3 & T3 & L3 & V3). rewrite E3 in N. cbn [obind] in N. destruct (e3 =? 0) eqn:E30; [|discriminate N]. injection N as _ <-. split; [rewrite T3; exact I1'|]. split; [exact L3|]. intros _. apply V3. lia.
Qed.
Lemma begin_safe : forall fuel r s, arc_ok r -> inv fuel r s -> exists m s', ar_begin fuel r s = Ok (m, s') /\ t_off s' = t_off s /\ long_ok fuel r s' /\ match m with None => True | Some (p, n) => valid r s' /\ p = t_off s' + 60 /\ n = h_size (t_hdr s') end.
Proof.
  intros fuel r s OK (I1 & I2 & I3). pose proof OK as (A & B & C & D & E). unfold ar_begin.
  assert (G : forall s2, valid r s2 -> long_ok fuel r s2 -> t_off s2 = t_off s -> exists m s', (if negb (0 =? 0) then Ok (None, s2) else let size := u64 (h_size (t_hdr s2)) in let p := t_off s2 + SZ_HDR in if size =? two64 - 1 then UB else if r_mapped r && (8 <=? size) && (zlen (r_mem r) <? p + 8) then UB else Ok (Some (p, size), s2)) = Ok (m, s') /\ t_off s' = t_off s /\ long_ok fuel r s' /\ match m with None => True | Some (p, n) => valid r s' /\ p = t_off s' + 60 /\ n = h_size (t_hdr s') end).
  { intros s2 V LO2 T. pose proof V as (V1 & V2 & V3 & V4). unfold ends in V4. cbn zeta. change (negb (0 =? 0)) with false. cbn iota. rewrite u64_small by lia. unfold SZ_HDR. replace (h_size (t_hdr s2) =? two64 - 1) with false by lia. replace (r_mapped r && (8 <=? h_size (t_hdr s2)) && (zlen (r_mem r) <? t_off s2 + 60 + 8)) with false by (symmetry; destruct (r_mapped r); cbn [andb]; lia).
    do 2 eexists. split; [reflexivity|]. split; [exact T|]. split; [exact LO2|]. split; [exact V|]. split; reflexivity. }
  destruct (h_name (t_hdr s)) as [n|] eqn:HN; cbn [obind]; [apply G; [apply I3; discriminate|exact I2|reflexivity]|].
  destruct (next_safe fuel r s OK I2 I1) as (e & s2 & -> & T & L' & V). cbn [obind]. destruct (e =? 0) eqn:E0; [replace e with 0 in * by lia; apply G; [apply V; reflexivity|exact L'|exact T]|]. cbn [negb]. do 2 eexists. split; [reflexivity|]. split; [exact T|]. split; [exact L'|exact Logic.I].
Qed.
(* the walk *)
Definition spaced (r : arc) (l : list (Z * Z * arhdr)) (from : Z) : Prop :=
  (forall p n h, In (p, n, h) l -> from + 60 <= p /\ 0 <= n /\ p + n <= ends r) /\
  (forall i j p n h p' n' h', (i < j)%nat -> nth_error l i = Some (p, n, h) -> nth_error l j = Some (p', n', h') -> p + n + 60 <= p').
Lemma walk_safe : forall fuel r steps s, arc_ok r -> inv fuel r s -> (ends r - t_off s < Z.of_nat steps * 60) -> (0 < steps)%nat -> exists l s', ar_walk steps fuel r s = Ok (l, s') /\ spaced r l (t_off s).
Proof.
  intros fuel r steps. induction steps as [|k IH]; intros s OK IV ST POS; [lia|]. pose proof OK as (A & B & C & D & E). cbn [ar_walk]. destruct (begin_safe fuel r s OK IV) as (m & s1 & -> & T & LO & M). cbn [obind]. destruct m as [[p n]|].
  2: { do 2 eexists. split; [reflexivity|]. split; [intros ? ? ? []|intros i j ? ? ? ? ? ? _ H; destruct i; discriminate]. }
  destruct M as (V & -> & ->). pose proof V as (V1 & V2 & V3 & V4). unfold ends in *.
  destruct (next_inv fuel r s1 OK LO) as (b & s2 & -> & IV2 & VB & T2). cbn [obind]. pose proof (even_up_small (h_size (t_hdr s1)) ltac:(lia)) as [EU _]. rewrite s64_small in T2 by (unfold SZ_HDR; lia). unfold SZ_HDR in T2.
  destruct b.
  - destruct k as [|k]; [specialize (VB eq_refl); destruct VB as (W1 & W2 & W3 & W4); unfold ends in W4; lia|]. destruct (IH s2 OK IV2) as (l & s' & -> & S1 & S2); [lia|lia|]. cbn [obind]. do 2 eexists. split; [reflexivity|]. split.
    + intros p n h [H|H]; [injection H as <- <- <-; unfold ends in *; lia|]. specialize (S1 p n h H). unfold ends in *. lia.
    + intros i j p n h p' n' h' IJ PI PJ. destruct j as [|j]; [lia|]. cbn [nth_error] in PJ. destruct i as [|i]; [|apply (S2 i j p n h p' n' h'); [lia|exact PI|exact PJ]]. injection PI as <- <- <-. specialize (S1 p' n' h' (nth_error_In _ _ PJ)). unfold ends in *. lia.
  - do 2 eexists. split; [reflexivity|]. split; [intros p n h [H|[]]; injection H as <- <- <-; unfold ends in *; lia|]. intros i j ? ? ? ? ? ? IJ H1 H2. destruct i, j; try lia; cbn in H2; destruct j; discriminate.
Qed.
