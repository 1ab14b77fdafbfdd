(* The line number program and its header: proofs for LineProps. *)
From Verif Require Import Base LebModel LebSpec LebProof DwModel Slice CfiSpec CfiModel CfiProof CfiSafe FormModel FormProps LineModel LineSpec ArangeProps.
Require Import ZArith List Lia Bool ZifyBool Permutation Sorting.Sorted. Import ListNotations. Open Scope Z_scope.

(* How the model's lines, files and states show rows, sources and registers. *)
Definition bit (b : bool) : Z := if b then 1 else 0.
Definition shown (w : row) : line :=
  let r := r_regs w in
  Line (address r) (file r) (lineno r) (column r) (bit (is_stmt r)) (basic_block r) (r_end w) (prologue_end r) (epilogue_begin r) (op_index r) (isa r) (discriminator r).
Definition info (dirs : list (option bytes)) (f : source) : fileinfo := File (full_name dirs f) (mtime f) (size f).
Definition state_of (dirs : list (option bytes)) (f0 : list fileinfo) (s : regs * list row * list source) : lstate :=
  let '(r, rows, fs) := s in
  LS (address r) (op_index r) (file r) (lineno r) (column r) (bit (is_stmt r)) (basic_block r) (prologue_end r) (epilogue_begin r) (isa r) (discriminator r)
     (rev (map shown rows)) (rev (f0 ++ map (info dirs) fs)).
Definition header_of (h : params) (std : Z) (dirs : list (option bytes)) : lhdr := LH (minimum h) (maximum h) (bit (default_stmt h)) (base h) (range h) (opcode_base h) std dirs.

(* What fits the fields of Dwarf_Line. *)
Definition fits (w : row) : bool :=
  let r := r_regs w in
  (- two31 <=? lineno r) && (lineno r <? two31) && (column r <? 65536) && (isa r <? 256) && (discriminator r <? 2 ^ 24).
(* Restrictions: operands of 32 bits, address advances of 32 bits, and the form of extended
   opcodes that the reader understands. *)
Definition usual (h : params) (dirs : list (option bytes)) (i : instr) : Prop :=
  match i with
  | Advance_pc n => n + 256 < two32 /\ minimum h * (n + 256) < two32
  | Advance_line n => - two31 <= n < two31
  | Set_file n | Set_column n | Set_isa n => n < two32
  | Set_discriminator n => n < two32 /\ znth (lengths h) 3 = Some 1
  | Define_file f => dir f < zlen dirs
  | _ => True
  end.
Definition short (b : bytes) : Prop := match b with 0 :: y :: _ => y < 128 | _ => True end.
(* Registers that do not overflow on the way. *)
Definition tame (r : regs) : Prop := 0 <= address r < two64 /\ - two63 <= lineno r < two63.

Definition ctx_ok (c : lctx) (h : params) (std : Z) (dirs : list (option bytes)) : Prop :=
  (n_asize c = 4 \/ n_asize c = 8) /\ zlen (n_mem c) < two63 /\ zlen dirs < two32 /\ at_ (n_mem c) (std + 1) (lengths h) /\
  0 <= minimum h < 256 /\ 0 < maximum h < 256 /\ -128 <= base h < 128 /\ 0 <= range h < 256 /\ 0 < opcode_base h < 256.

Lemma at_znth : forall mem p b i x, at_ mem p b -> znth b i = Some x -> znth mem (p + i) = Some x.
Proof.
  intros mem p b i x (P & L & E) X. unfold znth in X. destruct ((0 <=? i) && (i <? zlen b)) eqn:I; [|discriminate].
  assert (Y : znth b i = Some x) by (unfold znth; rewrite I; exact X). rewrite <- E in Y. rewrite znth_zsub in Y by lia. replace (i <? zlen b) with true in Y by lia. exact Y.
Qed.
Lemma std_ok : forall c h std dirs x n, ctx_ok c h std dirs -> standard_op h x n -> std_len c (header_of h std dirs) x n = Ok tt /\ CfiModel.byte_at (n_mem c) (std + x) = Ok n.
Proof.
  intros c h std dirs x n (_ & _ & _ & A & _) [X N]. pose proof (at_znth _ _ _ _ _ A N) as Z0. replace (std + 1 + (x - 1)) with (std + x) in Z0 by lia.
  unfold std_len, CfiModel.byte_at. cbn [g_std header_of]. rewrite Z0. cbn [obind]. rewrite Z.eqb_refl. split; reflexivity.
Qed.
Lemma uleb_ok : forall c p e n b, uleb_of n b -> at_ (n_mem c) p b -> p + zlen b <= e -> uleb c p e = Ok (n, p + zlen b).
Proof.
  intros c p e n b U A E. pose proof (uleb_len _ _ U). unfold uleb. replace (e <=? p) with false by lia. apply uleb_at; assumption.
Qed.
Lemma u32_id : forall n, 0 <= n < two32 -> u32 n = n.
Proof. intros n N. apply Z.mod_small. exact N. Qed.
Lemma advance_ok : forall h std dirs f0 r rows fs n, 0 <= minimum h < 256 -> 0 < maximum h < 256 -> 0 <= op_index r < maximum h -> 0 <= n -> n + 256 < two32 -> minimum h * (n + 256) < two32 -> 0 <= address r -> tame (advance h n r) ->
  advance_pc (header_of h std dirs) (state_of dirs f0 (r, rows, fs)) n = state_of dirs f0 (advance h n r, rows, fs).
Proof.
  intros h std dirs f0 r rows fs n MI MA OI N0 N1 N2 A0 [TA _]. unfold advance_pc. cbn [state_of s_op s_addr s_file s_line s_col s_stmt s_bb s_pe s_eb s_isa s_disc s_lines s_files g_min g_max header_of]. unfold advance in *. cbn [address op_index file lineno column is_stmt basic_block prologue_end epilogue_begin isa discriminator] in *.
  rewrite (u32_id (op_index r + n)) by lia. assert (D : 0 <= (op_index r + n) / maximum h <= op_index r + n).
  { split; [apply Z.div_pos; lia|]. apply Z.div_le_upper_bound; nia. }
  rewrite u32_id by nia. unfold u64. rewrite Z.mod_small by lia. reflexivity.
Qed.
Lemma line_ok : forall dirs f0 r rows fs e, op_index r < 256 ->
  new_line (state_of dirs f0 (r, rows, fs)) e = if fits (Row r e) then Ok (state_of dirs f0 (r, rows ++ [Row r e], fs)) else Err DWARF_E_INVALID_DEBUG_LINE.
Proof.
  intros dirs f0 r rows fs e O. unfold new_line, fits. cbn [state_of s_op s_addr s_file s_line s_col s_stmt s_bb s_pe s_eb s_isa s_disc s_lines s_files r_regs].
  assert (B : bit (is_stmt r) <? 2 = true) by (destruct (is_stmt r); reflexivity). rewrite B.
  match goal with |- (if ?x then _ else _) = (if ?y then _ else _) => assert (E : x = negb y) by lia; rewrite E; destruct y end; [|reflexivity].
  cbn [negb]. rewrite map_app, (rev_app_distr (map shown rows)). reflexivity.
Qed.
Lemma file_ok : forall c dirs f b p e narrow, zlen dirs < two32 -> file_bytes f b -> dir f < zlen dirs -> at_ (n_mem c) p b -> p + zlen b <= e -> e <= zlen (n_mem c) ->
  file_entry c dirs p e narrow = Ok (info dirs f, p + zlen b).
Proof.
  intros c dirs f b p e narrow DL F D A E ME. destruct F as [n d m s xd xm xs [T _] UD UM US]. cbn [dir] in D.
  destruct (at_bound _ _ _ A) as [P0 _]. rewrite !zlen_app in E. change (zlen [0]) with 1 in E. pose proof (uleb_of_nonneg _ _ UD). pose proof (zlen_nonneg _ n). pose proof (zlen_nonneg _ xd). pose proof (zlen_nonneg _ xm). pose proof (zlen_nonneg _ xs).
  unfold file_entry, memchr_. rewrite (memchr0_found n (xd ++ xm ++ xs) (n_mem c) p (e - p)) by (try assumption; unfold zlen in *; lia). cbn [obind].
  assert (AN : zsub (n_mem c) p (p + zlen n - p) = n) by (replace (p + zlen n - p) with (zlen n) by lia; apply (at_app1 _ _ _ _ A)). rewrite AN.
  pose proof (at_app2 _ _ _ _ (at_app2 _ _ _ _ A)) as A1. change (zlen [0]) with 1 in A1.
  rewrite (uleb_ok c _ e d xd UD (at_app1 _ _ _ _ A1)) by lia. cbn [obind].
  replace (if narrow then u32 d else d) with d by (destruct narrow; [rewrite u32_id by lia|]; reflexivity).
  destruct (Base.znth_in _ dirs d ltac:(lia)) as [dn DN]. rewrite DN. pose proof (at_app2 _ _ _ _ A1) as A2.
  rewrite (uleb_ok c _ e m xm UM (at_app1 _ _ _ _ A2)) by lia. cbn [obind]. rewrite (uleb_ok c _ e s xs US (at_app2 _ _ _ _ A2)) by lia. cbn [obind].
  rewrite !zlen_app. change (zlen [0]) with 1. do 2 f_equal; [|lia]. unfold info, full_name, join. cbn [name dir mtime size]. rewrite DN. destruct dn; reflexivity.
Qed.
Lemma skip_ok : forall c l b, ulebs l b -> forall p e, at_ (n_mem c) p b -> p + zlen b <= e -> skip_args c (length l) p e = Ok (p + zlen b).
Proof.
  induction 1 as [|n l b d U H IH]; intros p e A E; [cbn; f_equal; lia|]. cbn [length skip_args]. rewrite zlen_app in *. pose proof (zlen_nonneg _ d).
  rewrite (uleb_ok c p e n b U (at_app1 _ _ _ _ A)) by lia. cbn [obind]. rewrite (IH _ e (at_app2 _ _ _ _ A)) by lia. f_equal. lia.
Qed.
Lemma in_exec_order : forall h i s, op_index (fst (fst s)) < maximum h -> 0 <= op_index (fst (fst s)) -> 0 < maximum h -> 0 <= op_index (fst (fst (exec h i s))) < maximum h.
Proof.
  intros h i [[r rows] fs] O O' M. cbn [fst] in *. destruct i; cbn; try lia; apply Z.mod_pos_bound; exact M.
Qed.
Definition new_rows (h : params) (i : instr) (r : regs) : list row := snd (fst (exec h i (r, [], []))).
Lemma exec_split : forall h i r rows fs, exec h i (r, rows, fs) = (fst (fst (exec h i (r, [], []))), rows ++ new_rows h i r, fs ++ snd (exec h i (r, [], []))).
Proof. intros h i r rows fs. unfold new_rows. destruct i; cbn; rewrite ?app_nil_r; reflexivity. Qed.

Lemma s32_id : forall n, - two31 <= n < two31 -> s32 n = n.
Proof. intros n N. unfold s32. rewrite Z.mod_small by lia. lia. Qed.
Ltac red_op := cbn [Z.eqb Z.leb Z.compare Pos.compare Pos.compare_cont]; unfold standard; cbn [Z.eqb Pos.eqb].
Ltac finish := unfold new_rows; cbn [obind exec fst snd app forallb]; match goal with |- Ok (_, ?a) = Ok (_, ?b) => replace a with b by lia end; reflexivity.
Lemma step_ok : forall c h std dirs f0 i b r rows fs p e, ctx_ok c h std dirs -> instr_bytes (n_fle c) (n_asize c) h i b -> usual h dirs i -> short b ->
  at_ (n_mem c) p b -> p + zlen b <= e -> e <= zlen (n_mem c) -> 0 <= op_index r < maximum h -> tame r -> tame (fst (fst (exec h i (r, rows, fs)))) ->
  step c (header_of h std dirs) (state_of dirs f0 (r, rows, fs)) p e =
    if forallb fits (new_rows h i r) then Ok (state_of dirs f0 (exec h i (r, rows, fs)), p + zlen b) else Err DWARF_E_INVALID_DEBUG_LINE.
Proof.
  intros c h std dirs f0 i b r rows fs p e CO IB U SH A E ME OI TR TE. pose proof CO as (AS & M & DL & AL & MI & MA & BA & RA & OB). destruct (at_bound _ _ _ A) as [P0 _].
  unfold step.
  destruct IB as [x X R0|S0|n b S0 UL|n b S0 UL|n b S0 UL|n b S0 UL|S0|S0|S0 R0|n S0 N|S0|S0|n b S0 UL|x l b S0 X UL|i x b y XB UL OB0]; rewrite (byte_at_at _ _ _ _ A); cbn [obind]; cbn [g_opbase g_range g_base header_of];
    try (destruct (std_ok c h std dirs _ _ CO S0) as [SL SB]; pose proof (proj1 S0) as SX; match type of SX with 0 < ?k < _ => replace (opcode_base h <=? k) with false by lia end);
    try (rewrite zlen_cons in E |- *); try (change (zlen (@nil Z)) with 0); try (pose proof (at_shift _ _ _ _ A) as AB).
  - (* special *) replace (opcode_base h <=? x) with true by lia. replace (range h =? 0) with false by lia.
    set (adv := (x - opcode_base h) / range h). assert (AD : 0 <= adv < 256) by (unfold adv; split; [apply Z.div_pos; lia|apply Z.div_lt_upper_bound; nia]).
    set (r1 := with_line (lineno r + base h + (x - opcode_base h) mod range h) r).
    assert (ST : set_line (state_of dirs f0 (r, rows, fs)) (s64 (s_line (state_of dirs f0 (r, rows, fs)) + (base h + (x - opcode_base h) mod range h))) = state_of dirs f0 (r1, rows, fs)).
    { unfold set_line. cbn [state_of s_line]. rewrite s64_small; [|cbn in TE; unfold tame in TE; cbn in TE; lia]. unfold r1, with_line. cbn. f_equal. lia. }
    rewrite ST. rewrite advance_ok; try assumption; try (unfold r1; cbn [with_line op_index address]; unfold tame in TR; lia); try nia.
    rewrite line_ok by (unfold advance; cbn [op_index]; pose proof (Z.mod_pos_bound (op_index r1 + adv) (maximum h) ltac:(lia)); lia).
    unfold new_rows. cbn [exec fst snd app forallb]. fold adv r1. rewrite andb_true_r. destruct (fits _); [|reflexivity]. cbn [obind]. reflexivity.
  - red_op. rewrite SL. cbn [obind]. rewrite line_ok by lia. unfold new_rows. cbn [exec fst snd app forallb]. rewrite andb_true_r. destruct (fits _); [|reflexivity]. cbn [obind]. rewrite Z.add_0_r. reflexivity.
  - red_op. rewrite SL. cbn [obind]. rewrite (uleb_ok c _ e n b UL AB) by lia. cbn [obind]. pose proof (uleb_of_nonneg _ _ UL). cbn [usual] in U. rewrite u32_id by lia.
    rewrite advance_ok; try assumption; try lia; try (unfold tame in TR; lia). finish.
  - red_op. rewrite SL. cbn [obind]. pose proof (sleb_len _ _ UL). replace (e <=? p + 1) with false by lia. rewrite (sleb_at _ _ e _ _ UL AB) by lia. cbn [obind]. cbn [usual] in U.
    rewrite s32_id by lia. cbn [state_of s_line]. rewrite s64_small; [|cbn in TE; unfold tame in TE; cbn in TE; lia]. finish.
  - red_op. rewrite SL. cbn [obind]. rewrite (uleb_ok c _ e n b UL AB) by lia. cbn [obind]. pose proof (uleb_of_nonneg _ _ UL). cbn [usual] in U. rewrite u32_id by lia. finish.
  - red_op. rewrite SL. cbn [obind]. rewrite (uleb_ok c _ e n b UL AB) by lia. cbn [obind]. pose proof (uleb_of_nonneg _ _ UL). cbn [usual] in U. rewrite u32_id by lia. finish.
  - red_op. rewrite SL. cbn [obind]. cbn [state_of s_stmt]. replace (u8 (1 - bit (is_stmt r))) with (bit (negb (is_stmt r))) by (destruct (is_stmt r); reflexivity). finish.
  - red_op. rewrite SL. cbn [obind]. finish.
  - red_op. rewrite SL. cbn [obind]. cbn [g_range g_opbase header_of]. replace (range h =? 0) with false by lia. rewrite Z.quot_div_nonneg by lia.
    assert (AD : 0 <= (255 - opcode_base h) / range h < 256) by (split; [apply Z.div_pos; lia|apply Z.div_lt_upper_bound; nia]).
    rewrite advance_ok; try assumption; try lia; try nia; try (unfold tame in TR; lia). finish.
  - red_op. rewrite SL. cbn [obind]. rewrite zlen_enc in * by lia. replace (e - (p + 1) <? 2) with false by lia. rewrite (rd_at _ _ _ 2 n) by (try exact AB; change (256 ^ 2) with 65536; lia). cbn [obind].
    cbn [state_of s_addr]. unfold u64. rewrite Z.mod_small by (cbn in TE; unfold tame in TE; cbn in TE; lia). finish.
  - red_op. rewrite SL. cbn [obind]. finish.
  - red_op. rewrite SL. cbn [obind]. finish.
  - red_op. rewrite SL. cbn [obind]. rewrite (uleb_ok c _ e n b UL AB) by lia. cbn [obind]. pose proof (uleb_of_nonneg _ _ UL). cbn [usual] in U. rewrite u32_id by lia. finish.
  - replace (x =? 0) with false by lia. replace (x <=? 12) with false by lia. cbn [g_std header_of]. rewrite SB. cbn [obind]. replace (Z.to_nat (zlen l)) with (length l) by (unfold zlen; lia). rewrite (skip_ok c l b UL (p + 1) e AB) by lia. finish.
  - replace (opcode_base h <=? 0) with false by lia. cbn [Z.eqb]. 
    assert (Y : y = [1 + zlen b]).
    { destruct UL as (C & L & V & _). destruct y as [|y0 y]; [destruct C|]. cbn in SH. destruct y as [|y1 y]; [cbn in C; cbn [uleb_value] in V; rewrite Z.mod_small in V by lia; f_equal; lia|]. cbn in C. lia. }
    subst y. cbn [app] in *. rewrite zlen_cons in *. assert (YB : 1 + zlen b < 128) by exact SH. pose proof (zlen_nonneg _ b) as B0.
    unfold extended. replace (e - (p + 1) <? 2) with false by (rewrite zlen_cons in E; lia). rewrite (byte_at_at _ _ _ _ AB). cbn [obind]. pose proof (at_shift _ _ _ _ AB) as AC.
    rewrite zlen_cons in *. unfold u64 at 1. rewrite Z.mod_small by lia. replace (e - (p + 1 + 1) <? 1 + zlen b) with false by lia. rewrite (byte_at_at _ _ _ _ AC). cbn [obind]. pose proof (at_shift _ _ _ _ AC) as AD.
    destruct XB as [|n N|f b F|n b UL'|x b X].
    + cbn [Z.eqb Pos.eqb]. rewrite line_ok by lia. unfold new_rows. cbn [exec fst snd app forallb]. rewrite andb_true_r. destruct (fits _); [|reflexivity]. cbn [obind]. change (zlen []) with 0. match goal with |- Ok (_, ?a) = Ok (_, ?b) => replace a with b by lia end. reflexivity.
    + cbn [Z.eqb Pos.eqb]. rewrite zlen_enc in * by lia. replace (e - (p + 1 + 1 + 1) <? u8 (n_asize c)) with false by (unfold u8; rewrite Z.mod_small by lia; lia).
      assert (RA' : read_address (n_fle c) (n_mem c) (p + 1 + 1 + 1) (n_asize c) = Ok n).
      { destruct (at_bound _ _ _ AD) as [B1 B2]. rewrite zlen_enc in B2 by lia. unfold read_address, in_section. replace (negb ((p + 1 + 1 + 1 <? 0) || (zlen (n_mem c) <? n_asize c) || (zlen (n_mem c) - n_asize c <? p + 1 + 1 + 1))) with true by lia.
        replace (if n_asize c =? 4 then 4 else 8) with (n_asize c) by (destruct AS as [-> | ->]; reflexivity). apply rd_at; [lia|exact N|exact AD]. }
      rewrite RA'. finish.
    + cbn [Z.eqb Pos.eqb]. cbn [g_dirs header_of]. rewrite (file_ok c dirs f b _ e true DL F U AD) by lia. cbn [obind]. unfold new_rows; cbn [exec fst snd app forallb]. match goal with |- Ok (_, ?a) = Ok (_, ?b) => replace a with b by lia end. do 2 f_equal. unfold add_file. cbn [state_of s_addr s_op s_file s_line s_col s_stmt s_bb s_pe s_eb s_isa s_disc s_lines s_files]. rewrite map_app, app_assoc, (rev_app_distr (f0 ++ _)). reflexivity.
    + cbn [Z.eqb Pos.eqb]. destruct U as [U1 U2]. assert (S4 : std_len c (header_of h std dirs) 4 1 = Ok tt).
      { pose proof (at_znth _ _ _ _ _ AL U2) as Z4. unfold std_len, CfiModel.byte_at. cbn [g_std header_of]. replace (std + 4) with (std + 1 + 3) by lia. rewrite Z4. reflexivity. }
      rewrite S4. cbn [obind]. rewrite (uleb_ok c _ e n b UL' AD) by lia. cbn [obind]. pose proof (uleb_of_nonneg _ _ UL'). rewrite u32_id by lia. finish.
    + replace (x =? 1) with false by lia. replace (x =? 2) with false by lia. replace (x =? 3) with false by lia. replace (x =? 4) with false by lia. unfold u64. rewrite Z.mod_small by lia.
      replace (e - (p + 1 + 1 + 1 - 1) <? 1 + zlen b) with false by lia. finish.
Qed.

Fixpoint tame_run (h : params) (l : list instr) (s : regs * list row * list source) : Prop :=
  match l with [] => True | i :: r => tame (fst (fst (exec h i s))) /\ tame_run h r (exec h i s) end.
Lemma exec_all_split : forall h l r rows fs, exec_all h l (r, rows, fs) =
  (fst (fst (exec_all h l (r, [], []))), rows ++ snd (fst (exec_all h l (r, [], []))), fs ++ snd (exec_all h l (r, [], []))).
Proof.
  intros h l. induction l as [|i l IH]; intros r rows fs; [cbn; rewrite !app_nil_r; reflexivity|]. unfold exec_all in *. cbn [fold_left]. rewrite exec_split. rewrite (exec_split h i r [] []). cbn [app].
  rewrite IH. rewrite (IH _ (new_rows h i r) (snd (exec h i (r, [], [])))). cbn [fst snd]. rewrite !app_assoc. reflexivity.
Qed.
Lemma instr_len : forall le asize h i b, instr_bytes le asize h i b -> 1 <= zlen b.
Proof. intros le asize h i b H. destruct H; rewrite zlen_cons; match goal with |- 1 <= 1 + zlen ?l => pose proof (zlen_nonneg _ l) end; lia. Qed.
Lemma run_ok : forall c h std dirs f0 e, ctx_ok c h std dirs -> e <= zlen (n_mem c) -> forall ps r rows fs p fuel,
  program (n_fle c) (n_asize c) h ps -> Forall (usual h dirs) (map fst ps) -> Forall short (map snd ps) -> at_ (n_mem c) p (program_bytes ps) -> e = p + zlen (program_bytes ps) ->
  0 <= op_index r < maximum h -> tame r -> tame_run h (map fst ps) (r, rows, fs) -> (length (program_bytes ps) <= fuel)%nat ->
  run fuel c (header_of h std dirs) (state_of dirs f0 (r, rows, fs)) p e =
    if forallb fits (snd (fst (exec_all h (map fst ps) (r, [], [])))) then Ok (state_of dirs f0 (exec_all h (map fst ps) (r, rows, fs))) else Err DWARF_E_INVALID_DEBUG_LINE.
Proof.
  intros c h std dirs f0 e CO ME. pose proof CO as (_ & _ & _ & _ & _ & MA & _). induction ps as [|[i b] ps IH]; intros r rows fs p fuel P U SH A E OI TR TT FU.
  - cbn in E. destruct fuel; cbn [run]; replace (e <=? p) with true by lia; reflexivity.
  - apply Forall_cons_iff in P as [P1 P]. cbn [map fst snd] in *. apply Forall_cons_iff in U as [U1 U]. apply Forall_cons_iff in SH as [S1 SH]. cbn [tame_run] in TT. destruct TT as [T1 TT]. pose proof (instr_len _ _ _ _ _ P1) as L1.
    unfold program_bytes in *. cbn [map concat snd] in *. rewrite zlen_app in E. rewrite app_length in FU. pose proof (zlen_nonneg _ (concat (map snd ps))). destruct fuel as [|fuel]; [unfold zlen in L1; lia|]. cbn [run]. replace (e <=? p) with false by lia.
    rewrite (step_ok c h std dirs f0 i b r rows fs p e CO P1 U1 S1 (at_app1 _ _ _ _ A)) by (try assumption; lia).
    unfold exec_all. cbn [fold_left]. fold (exec_all h (map fst ps) (exec h i (r, [], []))). fold (exec_all h (map fst ps) (exec h i (r, rows, fs))).
    rewrite (exec_split h i r [] []). cbn [app]. rewrite (exec_all_split h (map fst ps) _ (new_rows h i r)). cbn [fst snd]. rewrite forallb_app. destruct (forallb fits (new_rows h i r)); [|reflexivity]. cbn [obind andb].
    rewrite exec_split in TT, T1 |- *. cbn [fst snd] in T1. apply IH; try assumption; try lia.
    + exact (at_app2 _ _ _ _ A).
    + apply (in_exec_order h i (r, [], [])); cbn [fst]; lia.
    + unfold zlen in L1. lia.
Qed.

(* qsort *)
Definition sorter (qs : list (nat * line) -> list (nat * line)) : Prop := forall l, Permutation l (qs l) /\ StronglySorted (fun a b => compare_lines a b <= 0) (qs l).
Definition numbered (rows : list row) : list (nat * row) := combine (seq 0 (length rows)) rows.
Fixpoint last_ends (l : list row) : list row :=
  match l with [] => [] | [w] => [Row (r_regs w) true] | w :: r => w :: last_ends r end.
Definition shown_n (x : nat * row) : nat * line := (fst x, shown (snd x)).
Lemma combine_map : forall (A B C : Type) (f : B -> C) (l : list A) (m : list B), combine l (map f m) = map (fun x => (fst x, f (snd x))) (combine l m).
Proof. induction l as [|a l IH]; intros [|b m]; cbn; [reflexivity..|]. rewrite IH. reflexivity. Qed.
Lemma compare_before : forall a b, fst a <> fst b -> compare_lines (shown_n a) (shown_n b) <= 0 -> row_before a b.
Proof.
  intros [i x] [j y] N C. unfold compare_lines, shown_n, row_before in *. cbn [fst snd shown n_addr n_end] in *.
  destruct (address (r_regs x) =? address (r_regs y)) eqn:A; cbn [negb] in C.
  - right. split; [lia|]. destruct (r_end x) eqn:X, (r_end y) eqn:Y; cbn [Bool.eqb negb] in C; try (destruct (i <? j)%nat eqn:IJ; [right; split; [reflexivity|lia]|]; destruct (j <? i)%nat eqn:JI; lia); [left; auto|lia].
  - left. destruct (address (r_regs x) <? address (r_regs y)) eqn:L; lia.
Qed.
Lemma sorted_rows : forall qs rows, sorter qs -> exists rs, Permutation (numbered rows) rs /\ StronglySorted row_before rs /\ qs (combine (seq 0 (length rows)) (map shown rows)) = map shown_n rs.
Proof.
  intros qs rows Q. rewrite combine_map. fold (numbered rows). change (fun x => (fst x, shown (snd x))) with shown_n. destruct (Q (map shown_n (numbered rows))) as [P SS].
  apply Permutation_sym, Permutation_map_inv in P as (rs & E & P). exists rs. split; [exact P|]. split; [|exact E]. rewrite E in SS.
  assert (ND : NoDup (map fst rs)).
  { eapply Permutation_NoDup; [apply Permutation_map; exact P|]. unfold numbered. clear. generalize 0%nat as k. induction rows as [|w rows IH]; intro k; [constructor|]. cbn. constructor; [|apply IH].
    intro I. apply in_map_iff in I as ([i x] & <- & I). apply in_combine_l, in_seq in I. cbn in I. lia. }
  clear - SS ND. induction rs as [|a rs IH]; [constructor|]. cbn [map] in *. apply StronglySorted_inv in SS as [SS F]. apply NoDup_cons_iff in ND as [NI ND]. constructor; [apply IH; assumption|].
  rewrite Forall_forall in *. intros b B. apply compare_before; [intro X; apply NI; rewrite X; apply in_map; exact B|]. apply F, in_map, B.
Qed.
Lemma mark_last_ok : forall l, mark_last (map shown l) = map shown (last_ends l).
Proof.
  intro l. unfold mark_last. destruct (rev (map shown l)) as [|x r] eqn:E.
  - apply (f_equal (@rev _)) in E. rewrite rev_involutive in E. destruct l; [reflexivity|discriminate].
  - assert (X : exists l' w, l = l' ++ [w] /\ shown w = x /\ rev (map shown l') = r).
    { destruct (@exists_last _ l) as (l' & w & ->); [intros ->; discriminate|]. rewrite map_app, rev_app_distr in E. injection E as <- <-. eauto. }
    destruct X as (l' & w & -> & <- & <-). cbn [rev]. rewrite rev_involutive. clear. induction l' as [|y l' IH]; [reflexivity|]. cbn [map app]. rewrite IH. destruct l'; reflexivity.
Qed.

(* The program, given the header *)
Definition result_ok (c : lctx) (rows : list row) (lines : list line) : Prop :=
  exists rs, Permutation (numbered rows) rs /\ StronglySorted row_before rs /\ lines = map shown (last_ends (map snd rs)).
Lemma srclines_ok : forall qs c h std dirs f0 p p' ps, sorter qs -> ctx_ok c h std dirs -> read_header c p = Ok (header_of h std dirs, f0, p', p' + zlen (program_bytes ps)) ->
  program (n_fle c) (n_asize c) h ps -> Forall (usual h dirs) (map fst ps) -> Forall short (map snd ps) -> at_ (n_mem c) p' (program_bytes ps) -> tame_run h (map fst ps) (initial h, [], []) ->
  let '(_, rows, fs) := exec_all h (map fst ps) (initial h, [], []) in
  if forallb fits rows then exists lines, read_srclines qs c p = Ok (lines, f0 ++ map (info dirs) fs, dirs) /\ result_ok c rows lines
  else read_srclines qs c p = Err DWARF_E_INVALID_DEBUG_LINE.
Proof.
  intros qs c h std dirs f0 p p' ps Q CO RH P U SH A TT. destruct (exec_all h (map fst ps) (initial h, [], [])) as [[r rows] fs] eqn:EX. unfold read_srclines. rewrite RH. cbn [obind].
  destruct (at_bound _ _ _ A) as [B0 B1]. pose proof CO as (_ & _ & _ & _ & _ & MA & _).
  change (reset_regs (header_of h std dirs) [] (rev f0)) with (LS 0 0 1 1 0 (bit (default_stmt h)) false false false 0 0 [] (rev f0)).
  assert (ST : LS 0 0 1 1 0 (bit (default_stmt h)) false false false 0 0 [] (rev f0) = state_of dirs f0 (initial h, [], [])) by (cbn; rewrite app_nil_r; reflexivity).
  rewrite ST, (run_ok c h std dirs f0 _ CO B1 ps) by (try assumption; try reflexivity; try (cbn; lia); try (split; cbn; lia); unfold zlen in *; lia).
  rewrite EX. cbn [fst snd]. destruct (forallb fits rows); [|reflexivity]. cbn [obind state_of s_lines s_files g_dirs header_of]. rewrite !rev_involutive.
  destruct (sorted_rows qs rows Q) as (rs & PR & SS & E). rewrite map_length, E. eexists. split; [reflexivity|]. exists rs. split; [exact PR|]. split; [exact SS|].
  rewrite <- mark_last_ok. f_equal. rewrite !map_map. reflexivity.
Qed.

(* The header *)
Definition unit_size_ok (osize n : Z) : Prop := osize = 4 /\ n < 4294967280 \/ osize = 8 /\ n < two63.
Definition body_of (le : bool) (osize asize ver : Z) (h : params) (tabs prog : bytes) : bytes :=
  enc le 2 ver ++ (if 5 <=? ver then [asize; 0] else []) ++ enc le osize (zlen (params_bytes ver h ++ tabs)) ++ (params_bytes ver h ++ tabs) ++ prog.
Lemma byte2 : forall mem p a b r, at_ mem p (a :: b :: r) -> CfiModel.byte_at mem (p + 1) = Ok b.
Proof. intros mem p a b r A. exact (byte_at_at _ _ _ _ (at_shift _ _ _ _ A)). Qed.
Lemma header_ok : forall c p osize ver h tabs prog dirs files, (n_asize c = 4 \/ n_asize c = 8) -> zlen (n_mem c) < two63 -> 2 <= ver <= 5 -> params_ok ver h ->
  unit_size_ok osize (zlen (body_of (n_fle c) osize (n_asize c) ver h tabs prog)) ->
  at_ (n_mem c) p (unit_bytes (n_fle c) osize (n_asize c) ver h tabs prog) ->
  (forall q e, at_ (n_mem c) q tabs -> q + zlen tabs <= e -> e <= zlen (n_mem c) -> e - q <= zlen (body_of (n_fle c) osize (n_asize c) ver h tabs prog) -> (if 5 <=? ver then tables5 c osize q e else LineModel.tables_old c q e) = Ok (dirs, files, q + zlen tabs)) ->
  exists std p', read_header c p = Ok (header_of h std dirs, files, p', p' + zlen prog) /\ at_ (n_mem c) (std + 1) (lengths h) /\ at_ (n_mem c) p' prog.
Proof.
  intros c p osize ver h tabs prog dirs files AS M V (PM & PX & PB & PR & PO & PL & PLB) SZ A T. unfold unit_bytes in A. fold (body_of (n_fle c) osize (n_asize c) ver h tabs prog) in A.
  set (body := body_of (n_fle c) osize (n_asize c) ver h tabs prog) in *. pose proof (zlen_nonneg _ body) as B0. destruct (at_bound _ _ _ A) as [P0 PE]. rewrite zlen_app in PE.
  assert (LEN : exists l4, rd (n_fle c) (n_mem c) p 4 = Ok l4 /\
     (if l4 =? 4294967295 then if zlen (n_mem c) <? p + 12 then bad else l8 <- rd (n_fle c) (n_mem c) (p + 4) 8 ;; Ok (l8, p + 12, 8) else Ok (l4, p + 4, 4)) = Ok (zlen body, p + zlen (length_bytes (n_fle c) osize (zlen body)), osize) /\ 4 <= zlen (length_bytes (n_fle c) osize (zlen body))).
  { unfold length_bytes in *. destruct SZ as [[-> S1]|[-> S1]]; cbn [Z.eqb Pos.eqb] in *.
    - exists (zlen body). rewrite zlen_enc in * by lia. split; [apply rd_at; [lia|change (256 ^ 4) with two32; lia|exact (at_app1 _ _ _ _ A)]|]. replace (zlen body =? 4294967295) with false by lia. split; [reflexivity|lia].
    - exists 4294967295. rewrite <- app_assoc in A. rewrite zlen_app, !zlen_enc in * by lia. split; [apply rd_at; [lia|change (256 ^ 4) with two32; lia|exact (at_app1 _ _ _ _ A)]|]. cbn [Z.eqb Pos.eqb].
      replace (zlen (n_mem c) <? p + 12) with false by lia. pose proof (at_app2 _ _ _ _ A) as A2. rewrite zlen_enc in A2 by lia. rewrite (rd_at _ _ _ 8 (zlen body)) by (try (exact (at_app1 _ _ _ _ A2)); change (256 ^ 8) with two64; lia). split; [reflexivity|lia]. }
  destruct LEN as (l4 & R4 & RL & L4). apply at_app2 in A. set (q := p + zlen (length_bytes (n_fle c) osize (zlen body))) in *.
  unfold read_header. replace (zlen (n_mem c) <? p + 4) with false by lia. rewrite R4. cbn [obind]. rewrite RL. cbn [obind]. replace (zlen (n_mem c) - q <? zlen body) with false by lia.
  assert (BL : zlen body = 2 + (if 5 <=? ver then 2 else 0) + osize + zlen (params_bytes ver h) + zlen tabs + zlen prog).
  { unfold body, body_of. rewrite !zlen_app, !zlen_enc by (destruct SZ; lia). destruct (5 <=? ver); [change (zlen [n_asize c; 0]) with 2|change (zlen (@nil Z)) with 0]; lia. }
  assert (PBL : zlen (params_bytes ver h) = 5 + (if 4 <=? ver then 1 else 0) + (opcode_base h - 1)).
  { unfold params_bytes. rewrite !zlen_app, PL. change (zlen [minimum h]) with 1. change (zlen [if default_stmt h then 1 else 0; base h mod 256; range h; opcode_base h]) with 4. destruct (4 <=? ver); [change (zlen [maximum h]) with 1|change (zlen (@nil Z)) with 0]; lia. }
  pose proof (zlen_nonneg _ tabs) as T0. pose proof (zlen_nonneg _ prog) as G0. assert (OS : osize = 4 \/ osize = 8) by (destruct SZ; lia).
  unfold body in A. unfold body_of in A. set (e := q + zlen body) in *.
  replace (e - q <? 2) with false by (destruct (5 <=? ver), (4 <=? ver); lia). rewrite (rd_at _ _ _ 2 ver) by (try (exact (at_app1 _ _ _ _ A)); change (256 ^ 2) with 65536; lia). cbn [obind].
  replace ((ver <? 2) || (5 <? ver)) with false by lia. apply at_app2 in A. rewrite zlen_enc in A by lia.
  assert (V5 : (if 5 <=? ver then if e - (q + 2) <? 2 then bad else a <- CfiModel.byte_at (n_mem c) (q + 2) ;; s <- CfiModel.byte_at (n_mem c) (q + 2 + 1) ;; if negb (a =? n_asize c) || negb (s =? 0) then bad else Ok (q + 2 + 2) else Ok (q + 2))
     = Ok (q + 2 + zlen (if 5 <=? ver then [n_asize c; 0] else []))).
  { destruct (5 <=? ver); [|cbn; f_equal; lia]. cbn [app] in A. replace (e - (q + 2) <? 2) with false by (destruct (4 <=? ver); lia). rewrite (byte_at_at _ _ _ _ A), (byte2 _ _ _ _ _ A). cbn [obind]. rewrite Z.eqb_refl. reflexivity. }
  rewrite V5. cbn [obind]. apply at_app2 in A. set (q1 := q + 2 + zlen (if 5 <=? ver then [n_asize c; 0] else [])) in *.
  assert (Q1 : q1 = q + 2 + (if 5 <=? ver then 2 else 0)) by (unfold q1; destruct (5 <=? ver); reflexivity). clearbody q1.
  assert (EQ : e - q1 = osize + zlen (params_bytes ver h) + zlen tabs + zlen prog) by (unfold e; lia). assert (EM : e <= zlen (n_mem c)) by (unfold e; lia). assert (Q0 : 0 <= q1) by (destruct (5 <=? ver); lia). clearbody e.
  replace (e - q1 <? osize) with false by (destruct (4 <=? ver); lia).
  rewrite (rd_at _ _ _ osize (zlen (params_bytes ver h ++ tabs))); [|lia| |exact (at_app1 _ _ _ _ A)].
  2:{ rewrite zlen_app. destruct SZ as [[-> S1]|[-> S1]]; [change (256 ^ 4) with two32|change (256 ^ 8) with two64]; destruct (5 <=? ver), (4 <=? ver); lia. }
  cbn [obind]. apply at_app2 in A. rewrite zlen_enc in A by lia. set (st := q1 + osize) in *. assert (ST : e - st = zlen (params_bytes ver h) + zlen tabs + zlen prog) by (unfold st; lia). assert (S0 : 0 <= st) by (unfold st; lia). clearbody st.
  pose proof (at_app2 _ _ _ _ A) as AP. rewrite zlen_app in AP |- *. rewrite <- app_assoc in A. pose proof (at_app2 _ _ _ _ A) as AT. apply at_app1 in AT.
  pose proof (at_app1 _ _ _ _ A) as AH. unfold params_bytes in AH. cbn [app] in AH. rewrite (byte_at_at _ _ _ _ AH). cbn [obind]. apply at_shift in AH.
  set (rest := [if default_stmt h then 1 else 0; base h mod 256; range h; opcode_base h] ++ lengths h) in *.
  assert (MX : (if 4 <=? ver then if u64 (e - (st + 1)) <? 1 then bad else m <- CfiModel.byte_at (n_mem c) (st + 1) ;; if m =? 0 then bad else Ok (m, st + 1 + 1) else Ok (1, st + 1)) = Ok (maximum h, st + 1 + (if 4 <=? ver then 1 else 0)) /\
     at_ (n_mem c) (st + 1 + (if 4 <=? ver then 1 else 0)) rest).
  { destruct (4 <=? ver); [|split; [rewrite PX; do 2 f_equal; lia|rewrite Z.add_0_r; exact AH]]. cbn [app] in AH. rewrite u64_small by lia. replace (e - (st + 1) <? 1) with false by lia. rewrite (byte_at_at _ _ _ _ AH). cbn [obind]. replace (maximum h =? 0) with false by lia.
    split; [reflexivity|exact (at_shift _ _ _ _ AH)]. }
  destruct MX as [MX AR]. rewrite MX. cbn [obind]. set (x := st + 1 + (if 4 <=? ver then 1 else 0)) in *. assert (EX : e - x = 4 + (opcode_base h - 1) + zlen tabs + zlen prog /\ 0 <= x) by (unfold x; destruct (4 <=? ver); lia). assert (XS : x + 4 + (opcode_base h - 1) = st + zlen (params_bytes ver h)) by (unfold x; lia). clearbody x.
  rewrite u64_small by lia. replace (e - x <? 4) with false by lia. unfold rest in AR. cbn [app] in AR.
  rewrite (byte_at_at _ _ _ _ AR), (byte2 _ _ _ _ _ AR). cbn [obind]. pose proof (at_shift _ _ _ _ AR) as AR1. pose proof (byte2 _ _ _ _ _ AR1) as B2. replace (x + 1 + 1) with (x + 2) in B2 by lia. rewrite B2. cbn [obind].
  pose proof (at_shift _ _ _ _ AR1) as AR2. pose proof (byte2 _ _ _ _ _ AR2) as B3. replace (x + 1 + 1 + 1) with (x + 3) in B3 by lia. rewrite B3. cbn [obind].
  pose proof (at_shift _ _ _ _ (at_shift _ _ _ _ AR2)) as AL. replace (x + 1 + 1 + 1 + 1) with (x + 4) in AL by lia.
  replace (e - (x + 4) <? opcode_base h - 1) with false by lia. rewrite XS. rewrite (T _ e AT) by (destruct (4 <=? ver), (5 <=? ver); lia). cbn [obind].
  replace (u64 (st + (zlen (params_bytes ver h) + zlen tabs)) =? st + zlen (params_bytes ver h) + zlen tabs) with true by (rewrite u64_small by lia; lia). cbn [negb].
  exists (x + 4 - 1), (st + zlen (params_bytes ver h) + zlen tabs). split; [|split; [replace (x + 4 - 1 + 1) with (x + 4) by lia; exact AL|replace (st + zlen (params_bytes ver h) + zlen tabs) with (st + (zlen (params_bytes ver h) + zlen tabs)) by lia; exact AP]].
  unfold header_of, bit. assert (SB : s8 (base h mod 256) = base h) by (unfold s8; rewrite Zplus_mod_idemp_l; rewrite Z.mod_small by lia; lia).
  rewrite SB. do 2 f_equal. lia.
Qed.

(* Versions 2 to 4 *)
Lemma text_found : forall c p e s (r : bytes), text s -> at_ (n_mem c) p (s ++ [0] ++ r) -> p + zlen s < e -> memchr_ c p e = Ok (Some (p + zlen s)) /\ zsub (n_mem c) p (p + zlen s - p) = s.
Proof.
  intros c p e s r [T _] A E. destruct (at_bound _ _ _ A) as [P0 P1]. rewrite zlen_app in P1. pose proof (zlen_nonneg _ s). pose proof (zlen_nonneg _ ([0] ++ r)). unfold memchr_. rewrite (memchr0_found s r) by (try assumption; unfold zlen in *; lia). split; [reflexivity|].
  replace (p + zlen s - p) with (zlen s) by lia. apply (at_app1 _ _ _ _ A).
Qed.
Lemma dirs_old_ok : forall c e dirs p (r : bytes) fuel, Forall (fun d => d <> [] /\ text d) dirs -> at_ (n_mem c) p (dir_list dirs ++ 0 :: r) -> p + zlen (dir_list dirs) < e -> (length dirs < fuel)%nat ->
  dirs_old fuel c p e = Ok (map Some dirs, p + zlen (dir_list dirs) + 1).
Proof.
  intros c e. induction dirs as [|d dirs IH]; intros p r fuel F A E FU; (destruct fuel as [|fuel]; [lia|]); cbn [dirs_old].
  - cbn [dir_list map concat app] in *. rewrite (byte_at_at _ _ _ _ A). cbn. do 2 f_equal. lia.
  - apply Forall_cons_iff in F as [[NE T] F]. unfold dir_list in *. cbn [map concat] in *. rewrite <- !app_assoc in A. rewrite !zlen_app in *. change (zlen [0]) with 1 in *. pose proof (zlen_nonneg _ (concat (map (fun d => d ++ [0]) dirs))).
    destruct (text_found c p e d _ T A ltac:(lia)) as [MF ZS]. pose proof A as A'. destruct d as [|x d]; [congruence|]. cbn [app] in A'. rewrite (byte_at_at _ _ _ _ A'). cbn [obind]. pose proof (Forall_inv (proj1 T)) as X0. replace (x =? 0) with false by (cbn in X0; lia).
    rewrite MF. cbn [obind]. apply at_app2, at_app2 in A. change (zlen [0]) with 1 in A. rewrite (IH _ r fuel F A) by (cbn [length] in FU; lia). cbn [obind map]. rewrite ZS. do 2 f_equal. lia.
Qed.
Lemma file_list_len : forall l b, file_list l b -> (length l <= length b)%nat.
Proof. induction 1 as [|f l b d F N H IH]; [cbn; lia|]. rewrite app_length. cbn [length]. destruct F. rewrite !app_length. cbn [length]. lia. Qed.
Lemma files_old_ok : forall c dirs e, zlen dirs < two32 -> e <= zlen (n_mem c) -> forall l b, file_list l b -> forall p (r : bytes) fuel acc, Forall (fun f => dir f < zlen dirs) l -> at_ (n_mem c) p (b ++ 0 :: r) -> p + zlen b < e -> (length l < fuel)%nat ->
  files_old fuel c dirs p e acc = Ok (rev (map (info dirs) l) ++ acc, p + zlen b + 1).
Proof.
  intros c dirs e DL EM. induction 1 as [|f l b d F N H IH]; intros p r fuel acc D A E FU; (destruct fuel as [|fuel]; [lia|]); cbn [files_old].
  - cbn [app] in *. rewrite (byte_at_at _ _ _ _ A). cbn. do 2 f_equal. lia.
  - apply Forall_cons_iff in D as [D0 D]. rewrite zlen_app in *. pose proof (zlen_nonneg _ d). rewrite <- app_assoc in A.
    pose proof (file_ok c dirs f b p e false DL F D0 (at_app1 _ _ _ _ A) ltac:(lia) EM) as FO.
    assert (X : exists x, CfiModel.byte_at (n_mem c) p = Ok x /\ x <> 0).
    { pose proof (at_app1 _ _ _ _ A) as A1. clear - F N A1. destruct F as [n dd m s xd xm xs T UD UM US]. cbn [name] in N. destruct n as [|x n]; [congruence|]. exists x. split; [exact (byte_at_at _ _ _ _ A1)|exact (Forall_inv (proj1 T))]. }
    destruct X as (x & BX & X0). rewrite BX. cbn [obind]. replace (x =? 0) with false by lia. rewrite FO. cbn [obind]. rewrite (IH _ r fuel _ D (at_app2 _ _ _ _ A)) by (cbn [length] in FU; lia). cbn [map rev]. rewrite <- app_assoc. do 2 f_equal. lia.
Qed.
Lemma dir_list_len : forall l, (length l <= length (dir_list l))%nat.
Proof. induction l as [|d l IH]; [cbn; lia|]. unfold dir_list in *. cbn [map concat]. rewrite !app_length. cbn [length]. lia. Qed.
Lemma tables_old_ok : forall c dirs files tabs q e, LineSpec.tables_old dirs files tabs -> zlen dirs + 1 < two32 -> Forall (fun f => dir f < zlen dirs + 1) files -> at_ (n_mem c) q tabs -> q + zlen tabs <= e -> e <= zlen (n_mem c) ->
  LineModel.tables_old c q e = Ok (n_comp c :: map Some dirs, null_file :: map (info (n_comp c :: map Some dirs)) files, q + zlen tabs).
Proof.
  intros c dirs files tabs q e T DL D A E EM. destruct T as [b F FL]. destruct (at_bound _ _ _ A) as [Q0 Q1]. rewrite !zlen_app in *. change (zlen [0]) with 1 in *. cbn [app] in A. pose proof (zlen_nonneg _ b). pose proof (zlen_nonneg _ (dir_list dirs)).
  pose proof (dir_list_len dirs). pose proof (file_list_len _ _ FL). assert (FD : (length dirs < S (length (n_mem c)))%nat /\ (length files < S (length (n_mem c)))%nat) by (unfold zlen in Q1; split; lia). destruct FD as [FD FF].
  unfold LineModel.tables_old. rewrite (dirs_old_ok c e dirs q (b ++ [0]) _ F A) by (try exact FD; lia). cbn [obind]. replace (e <=? q + zlen (dir_list dirs) + 1) with false by lia.
  assert (ZD : zlen (n_comp c :: map Some dirs) = zlen dirs + 1) by (rewrite zlen_cons; unfold zlen; rewrite map_length; lia).
  rewrite (files_old_ok c (n_comp c :: map Some dirs) e ltac:(lia) EM files b FL _ []).
  - cbn [obind]. rewrite rev_app_distr, rev_involutive. cbn [rev app]. do 2 f_equal. lia.
  - eapply Forall_impl; [|exact D]. intros f X. exact (Z.lt_le_trans _ _ _ X (Z.eq_le_incl _ _ (eq_sym ZD))).
  - exact (at_shift _ _ _ _ (at_app2 _ _ _ _ A)).
  - lia.
  - exact FF.
Qed.
