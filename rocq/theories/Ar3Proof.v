(* Proofs about the symbol index of archives. *)
From Verif Require Import Base LebModel ElfErr HashModel HashSpec HashProof DwModel UnitProps SegProof Slice CfiSafe ArModel ArSpec ArProof Ar2Proof.
Require Import ZArith List Lia Bool ZifyBool. Import ListNotations. Open Scope Z_scope.

Lemma zsub_join : forall A (l : list A) p a b, 0 <= p -> 0 <= a -> 0 <= b -> zsub l p (a + b) = zsub l p a ++ zsub l (p + a) b.
Proof.
  assert (FN : forall A n m (l : list A), firstn (n + m) l = firstn n l ++ firstn m (skipn n l)).
  { intros A. induction n as [|n IH]; intros m l; [reflexivity|]. destruct l as [|x l]; cbn; [destruct m; reflexivity|]. f_equal. apply IH. }
  assert (SK : forall A n m (l : list A), skipn m (skipn n l) = skipn (n + m) l).
  { intros A. induction n as [|n IH]; intros m l; [reflexivity|]. destruct l as [|x l]; cbn; [destruct m; reflexivity|apply IH]. }
  intros A l p a b P A0 B0. unfold zsub. rewrite !Z2Nat.inj_add by lia. rewrite FN, SK. reflexivity.
Qed.
Definition entry_of (s : bytes * Z) : arsym := Sym (Some (fst s)) (snd s) (abi_hash (fst s)).
Definition last_sym : arsym := Sym None 0 (two64 - 1).
Lemma cstring_nul : forall s, cstring s -> Forall (fun y => y <> 0) s.
Proof. intros s C. eapply Forall_impl; [|exact C]. cbn. intros a H. lia. Qed.
Lemma sym_exact : forall syms w file p str, 0 < w -> Forall (fun s => cstring (fst s) /\ 0 <= snd s < 256 ^ w) syms -> at_ file p (concat (map (fun s : bytes * Z => enc false w (snd s)) syms)) -> (exists tail, str = concat (map (fun s : bytes * Z => fst s ++ [0]) syms) ++ tail) ->
  sym_loop (length syms) w file p str = Ok (map entry_of syms ++ [last_sym]).
Proof.
  induction syms as [|[n o] syms IH]; intros w file p str W F A [tail T]; cbn [length sym_loop map concat app] in *; [reflexivity|]. inversion F as [|? ? [C O] F']; subst. cbn [fst snd] in *. rewrite (rd_at false file p w o); [|lia|exact O|exact (at_app1 _ _ _ _ A)]. cbn [obind].
  replace (((n ++ [0]) ++ concat (map (fun s : bytes * Z => fst s ++ [0]) syms)) ++ tail) with (n ++ 0 :: (concat (map (fun s : bytes * Z => fst s ++ [0]) syms) ++ tail)) by (rewrite <- !app_assoc; reflexivity). rewrite dl_elf_hash_abi by exact C. cbn [obind]. rewrite index_of_app by (apply cstring_nul; exact C). rewrite firstn_len_app.
  set (rest := concat (map (fun s : bytes * Z => fst s ++ [0]) syms) ++ tail). replace (skipn (S (length n)) (n ++ 0 :: rest)) with rest by (replace (n ++ 0 :: rest) with ((n ++ [0]) ++ rest) by (rewrite <- app_assoc; reflexivity); replace (S (length n)) with (length (n ++ [0])) by (rewrite app_length; cbn; lia); rewrite skipn_len_app; reflexivity).
  apply at_app2 in A. rewrite zlen_enc in A by lia. rewrite (IH w file (p + w) rest W F' A); [reflexivity|eexists; reflexivity].
Qed.
Lemma skipn_at : forall mem p b, at_ mem p b -> exists tail, skipn (Z.to_nat p) mem = b ++ tail.
Proof.
  intros mem p b (P & L & E). exists (skipn (Z.to_nat (p + zlen b)) mem). unfold zsub in E. rewrite <- E at 1. replace (Z.to_nat (p + zlen b)) with (Z.to_nat p + Z.to_nat (zlen b))%nat by (pose proof (zlen_nonneg _ b); lia). clear. revert mem. generalize (Z.to_nat (zlen b)) as n. induction (Z.to_nat p) as [|k IH]; intros n mem; cbn [plus skipn]; [symmetry; apply firstn_skipn|]. destruct mem; [destruct n; reflexivity|apply IH].
Qed.
Lemma index_len : forall w syms, 0 < w -> zlen (concat (map (fun s : bytes * Z => enc false w (snd s)) syms)) = zlen syms * w.
Proof. intros w syms W. induction syms as [|s syms IH]; [reflexivity|]. cbn [map concat]. rewrite zlen_app, zlen_enc, IH, zlen_cons by lia. lia. Qed.
Lemma names_len : forall syms : list (bytes * Z), zlen syms <= zlen (concat (map (fun s : bytes * Z => fst s ++ [0]) syms)).
Proof. induction syms as [|[n o] syms IH]; [reflexivity|]. cbn [map concat fst]. rewrite !zlen_app, !zlen_cons. change (zlen (@nil Z)) with 0. pose proof (zlen_nonneg _ n). lia. Qed.
Lemma kind_eq : forall nm w, index_kind nm w -> negb (bytes_eqb nm NAME_INDEX) && negb (bytes_eqb nm NAME_SYM64) = false /\ (if bytes_eqb nm NAME_INDEX then 4 else 8) = w.
Proof. intros nm w [[-> ->]|[-> ->]]; split; reflexivity. Qed.
(* the number of the size field *)
Lemma size_text : forall mem p m h, at_ mem p h -> header m h -> atol (zsub mem (p + 48) 10 ++ [0]) 0 = Ok (zlen (m_data m)).
Proof.
  intros mem p m h A (d & u & g & s & N & M & D & U & G & SZ & _ & ->). assert (LD : zlen d = 12) by (destruct D as (? & ? & _ & _ & _ & _ & D); exact D). assert (LU : zlen u = 6) by (destruct U as (? & ? & _ & _ & _ & _ & U); exact U). assert (LG : zlen g = 6) by (destruct G as (? & ? & _ & _ & _ & _ & G); exact G).
  apply at_app2 in A. apply at_app2 in A. apply at_app2 in A. apply at_app2 in A. apply at_app2 in A. apply at_app1 in A. rewrite N, M, LD, LU, LG in A. replace (p + 16 + 12 + 6 + 6 + 8) with (p + 48) in A by lia. destruct SZ as (ds & k & NE & FD & DE & E & L). rewrite <- L. rewrite (at_zsub _ _ _ A). subst s.
  assert (B : 0 <= dec ds < 10 ^ 10). { pose proof (dec_bound ds FD). assert (LL : Z.of_nat (length ds) <= 10) by (rewrite zlen_app in L; pose proof (zlen_nonneg _ (repeat 32 k)); unfold zlen in *; lia). pose proof (pow10_mono (Z.of_nat (length ds)) 10 ltac:(lia)). lia. } change (10 ^ 10) with 10000000000 in B.
  rewrite (atol_at ds _ 0 (match k with O => 0 | S _ => 32 end)); [rewrite clamp_small, DE by lia; reflexivity| |exact NE|exact FD|destruct k; unfold digit; lia].
  destruct k as [|k]; cbn [repeat]; [rewrite app_nil_r; apply at_all|]. replace ((ds ++ 32 :: repeat 32 k) ++ [0]) with ((ds ++ [32]) ++ repeat 32 k ++ [0]) by (rewrite <- !app_assoc; reflexivity). exact (at_app1 _ _ _ _ (at_all _)).
Qed.
Lemma arsym_exact : forall r m h w syms rest, arc_ok r -> at_ (r_mem r) (r_so r + 8) (h ++ m_data m) -> header m h -> index_kind (m_name m) w -> m_data m = index w syms ++ rest -> 68 + zlen (m_data m) <= r_mx r ->
  Forall (fun s => cstring (fst s) /\ 0 <= snd s < 256 ^ w) syms -> (if r_mapped r then syms <> [] else r_so r + 68 + w + zlen (m_data m) <= zlen (r_mem r)) -> read_arsym r = Ok (map entry_of syms ++ [last_sym]).
Proof.
  intros r m h w syms rest OK A H K DE L F MP. pose proof OK as (A0 & B0 & C0 & D0 & E0). pose proof (header_dec _ _ _ _ (at_app1 _ _ _ _ A) H) as D. pose proof (size_text _ _ _ _ (at_app1 _ _ _ _ A) H) as ST. pose proof (size_small _ _ H) as SM. change (10 ^ 10) with 10000000000 in SM. apply at_app2 in A. rewrite (header_len _ _ H) in A. replace (r_so r + 8 + 60) with (r_so r + 68) in A by lia.
  assert (W : w = 4 \/ w = 8) by (destruct K as [[_ ->]|[_ ->]]; auto). pose proof (zlen_nonneg _ syms) as SN. pose proof (names_len syms) as NL. pose proof (zlen_nonneg _ rest) as RN. assert (DL : zlen (m_data m) = w + (zlen syms * w + zlen (concat (map (fun s : bytes * Z => fst s ++ [0]) syms))) + zlen rest) by (rewrite DE; unfold index; rewrite !zlen_app, zlen_enc, index_len by lia; lia).
  assert (P256 : 10000000000 < 256 ^ 8 /\ 256 ^ 4 = 4294967296) by (split; reflexivity). assert (CNT : 0 <= zlen syms < 256 ^ w) by (split; [lia|]; destruct W as [-> | ->]; lia).
  assert (AI : at_ (r_mem r) (r_so r + 68) (index w syms)) by (rewrite DE in A; exact (at_app1 _ _ _ _ A)). unfold index in AI. pose proof (at_app1 _ _ _ _ AI) as AN. apply at_app2 in AI. rewrite zlen_enc in AI by lia. pose proof (at_app1 _ _ _ _ AI) as AO. apply at_app2 in AI. rewrite index_len in AI by lia.
  pose proof (at_bound _ _ _ A) as AB. unfold read_arsym. unfold SZ_HDR.
  assert (C1 : (if r_mapped r then r_mx r <? 8 + 60 else negb (readable r (r_so r + 8) 60)) = false) by (unfold readable; destruct (r_mapped r); lia). rewrite C1. replace (r_so r + 8 + 58) with (r_so r + 8 + 58) by reflexivity. rewrite (d_magic _ _ _ D). change (negb (bytes_eqb [96; 10] [96; 10])) with false. cbv zeta. cbn iota. rewrite (at_name _ _ _ (d_name _ _ _ D) (d_nlen _ _ _ D)). destruct (kind_eq _ _ K) as [-> ->]. replace (r_so r + 8 + 60) with (r_so r + 68) by lia.
  rewrite ST. rewrite (rd_at false (r_mem r) (r_so r + 68) w (zlen syms)) by (try exact AN; lia).
  assert (LEN : (r_mx r <? u64 (zlen (m_data m))) || (r_mx r - u64 (zlen (m_data m)) <? 8 + 60) || (u64 (zlen (m_data m)) / w <? zlen syms) = false).
  { rewrite u64_small by lia. assert (zlen syms <= zlen (m_data m) / w) by (apply Z.div_le_lower_bound; lia). lia. }
  assert (NZ : Z.to_nat (zlen syms) = length syms) by (unfold zlen; lia).
  destruct (r_mapped r).
  - rewrite rd_in; [|lia|]. 2: { destruct syms; [congruence|]. rewrite zlen_cons in *. pose proof (zlen_nonneg _ syms). lia. } cbn [obind]. rewrite LEN. rewrite NZ. apply sym_exact; [lia|exact F|exact AO|]. apply skipn_at. exact (eq_rect _ (fun x => at_ (r_mem r) x _) AI _ eq_refl).
  - replace (readable r (r_so r + 68) w) with true by (unfold readable; lia). cbn [obind]. rewrite LEN. rewrite u64_small by lia. replace (readable r (r_so r + 68 + w) (zlen syms * w) && readable r (r_so r + 68 + w + zlen syms * w) (zlen (m_data m) - zlen syms * w)) with true by (unfold readable; lia). rewrite NZ. apply sym_exact; [lia|exact F| |].
    + rewrite <- (index_len w syms ltac:(lia)). rewrite (at_zsub _ _ _ AO). apply at_all.
    + set (q := r_so r + 68 + w + zlen syms * w) in *. set (nm := concat (map (fun s : bytes * Z => fst s ++ [0]) syms)) in *. exists (zsub (r_mem r) (q + zlen nm) (zlen (m_data m) - zlen syms * w - zlen nm)). rewrite <- (at_zsub _ _ _ AI) at 1. rewrite <- zsub_join by lia. f_equal. lia.
Qed.
(* ---- reading is safe when there are enough NULs ---- *)
Lemma nuls_index : forall l, 0 < nuls l -> exists i, index_of 0 l = Some i /\ nuls (skipn (S i) l) = nuls l - 1.
Proof.
  induction l as [|x l IH]; intro H; cbn [nuls index_of] in *; [lia|]. destruct (x =? 0) eqn:E; [exists O; split; [reflexivity|cbn [skipn]; lia]|]. destruct IH as (i & -> & EN); [lia|]. exists (S i). split; [reflexivity|]. cbn [skipn] in *. lia.
Qed.
Lemma nuls_nonneg : forall l, 0 <= nuls l. Proof. induction l as [|x l IH]; cbn [nuls]; [lia|]. destruct (x =? 0); lia. Qed.
Lemma sym_safe : forall n w file p str, 0 < w -> bytes_ok str -> 0 <= p -> p + Z.of_nat n * w <= zlen file -> Z.of_nat n <= nuls str -> exists l, sym_loop n w file p str = Ok l /\ length l = S n.
Proof.
  induction n as [|n IH]; intros w file p str W B P L N; cbn [sym_loop]; [eexists; split; reflexivity|]. rewrite rd_in by lia. cbn [obind]. destruct (nuls_index str ltac:(lia)) as (i & IX & NN). destruct (index_of_some _ _ _ IX) as (a & b & E & LA & FA). rewrite IX.
  assert (C : cstring a). { subst str. unfold bytes_ok in B. apply Forall_app in B. destruct B as [B _]. apply Forall_forall. intros x X. pose proof (proj1 (Forall_forall _ _) B x X) as U. pose proof (proj1 (Forall_forall _ _) FA x X). unfold is_u8 in U. cbn beta in *. lia. }
  assert (DH : dl_elf_hash str = Ok (abi_hash a)) by (rewrite E; apply dl_elf_hash_abi; exact C). rewrite DH. cbn [obind]. destruct (IH w file (p + w) (skipn (S i) str)) as (l & -> & LL); [exact W| |lia|nia|rewrite NN; lia|cbn [obind]; eexists; split; [reflexivity|cbn; lia]].
  unfold bytes_ok in *. rewrite <- (firstn_skipn (S i) str) in B. apply Forall_app in B. exact (proj2 B).
Qed.
Lemma atol_nul : forall l, exists v, atol (l ++ [0]) 0 = Ok v /\ - two63 <= v < two63.
Proof. intro l. apply (atol_stop (l ++ [0]) 0 (zlen l) 0); [|right; reflexivity|pose proof (zlen_nonneg _ l); lia]. rewrite znth_app_r by lia. rewrite Z.sub_diag. reflexivity. Qed.
Lemma bytes_ok_skipn : forall n l, bytes_ok l -> bytes_ok (skipn n l).
Proof. intros n l B. unfold bytes_ok in *. rewrite <- (firstn_skipn n l) in B. apply Forall_app in B. exact (proj2 B). Qed.
Lemma bytes_ok_firstn : forall n l, bytes_ok l -> bytes_ok (firstn n l).
Proof. intros n l B. unfold bytes_ok in *. rewrite <- (firstn_skipn n l) in B. apply Forall_app in B. exact (proj1 B). Qed.
(* the strings the index is read from: the rest of a mapped file, or what is read from the file *)
Definition strings (r : arc) (w n len : Z) : bytes := if r_mapped r then skipn (Z.to_nat (r_so r + 68 + w + n * w)) (r_mem r) else zsub (r_mem r) (r_so r + 68 + w + n * w) (len - n * w).
Lemma arsym_safe : forall r, arc_ok r -> bytes_ok (r_mem r) -> (r_mapped r = true -> r_so r + 76 <= zlen (r_mem r)) ->
  (forall w n len, index_kind (zsub (r_mem r) (r_so r + 8) 16) w -> rd false (r_mem r) (r_so r + 68) w = Ok n -> atol (zsub (r_mem r) (r_so r + 56) 10 ++ [0]) 0 = Ok len -> n <= nuls (strings r w n (u64 len))) ->
  (exists l, read_arsym r = Ok l) \/ (exists e, read_arsym r = Err e).
Proof.
  intros r OK B M N. pose proof OK as (A0 & B0 & C0 & D0 & E0). unfold read_arsym. destruct (if r_mapped r then _ else _) eqn:C1; [right; eauto|]. destruct (negb (bytes_eqb (zsub (r_mem r) (r_so r + 8 + 58) 2) _)); [right; eauto|]. cbv zeta. destruct (_ && _) eqn:K; [right; eauto|]. set (w := if bytes_eqb _ NAME_INDEX then 4 else 8) in *.
  assert (KD : index_kind (zsub (r_mem r) (r_so r + 8) 16) w). { unfold w, index_kind. destruct (bytes_eqb _ NAME_INDEX) eqn:K1; [left; apply bytes_eqb_spec in K1; split; [exact K1|reflexivity]|]. cbn [negb andb] in K. rewrite negb_false_iff in K. apply bytes_eqb_spec in K. right. split; [exact K|reflexivity]. }
  assert (W : w = 4 \/ w = 8) by (unfold w; destruct (bytes_eqb _ NAME_INDEX); auto). clearbody w. clear K. unfold SZ_HDR in *. replace (r_so r + 8 + 60) with (r_so r + 68) in * by lia. replace (r_so r + 8 + 48) with (r_so r + 56) by lia. destruct (atol_nul (zsub (r_mem r) (r_so r + 56) 10)) as (len & AL & LR). specialize (N w). rewrite AL.
  assert (R : r_so r + 68 + w <= zlen (r_mem r) -> let n := fval false (zsub (r_mem r) (r_so r + 68) w) in 0 <= n /\ n <= nuls (strings r w n (u64 len))).
  { intros LW n. split; [|apply (N n len KD); [apply rd_in; lia|exact AL]]. subst n. pose proof (fval_bound false (zsub (r_mem r) (r_so r + 68) w)) as FB. assert (bytes_ok (zsub (r_mem r) (r_so r + 68) w)) by (unfold zsub; apply bytes_ok_firstn, bytes_ok_skipn, B). specialize (FB H). lia. }
  pose proof (Z.mod_pos_bound len two64 ltac:(lia)) as UB0. fold (u64 len) in UB0. unfold strings in R. destruct (r_mapped r) eqn:MP.
  - specialize (M eq_refl). rewrite rd_in by lia. cbn [obind]. rewrite rd_in by lia. cbn [obind]. destruct (_ || _) eqn:LE; [right; eauto|]. left. destruct (R ltac:(lia)) as [R1 R2]. set (n := fval false _) in *. assert (NW : n * w <= u64 len) by (assert (n <= u64 len / w) by lia; pose proof (Z.mul_div_le (u64 len) w ltac:(lia)); pose proof (Z.mul_le_mono_nonneg_r n (u64 len / w) w ltac:(lia) ltac:(lia)); lia).
    destruct (sym_safe (Z.to_nat n) w (r_mem r) (r_so r + 68 + w) (skipn (Z.to_nat (r_so r + 68 + w + n * w)) (r_mem r))) as (l & -> & _); [lia|apply bytes_ok_skipn; exact B|lia| |lia|eauto].
    clear N R. clearbody n. destruct (Z.eq_dec n 0) as [->|NZ]; [change (Z.of_nat (Z.to_nat 0)) with 0; lia|]. rewrite Z2Nat.id by lia. assert (LS : (0 < length (skipn (Z.to_nat (r_so r + 68 + w + n * w)) (r_mem r)))%nat) by (revert R2; clear - R1 NZ; destruct (skipn _ _); cbn [nuls length]; intro; lia). rewrite skipn_length in LS. unfold zlen. lia.
  - destruct (readable r (r_so r + 68) w) eqn:RW; [|right; eexists; reflexivity]. assert (RW2 : r_so r + 68 + w <= zlen (r_mem r)) by (unfold readable in RW; lia). clear RW. rewrite rd_in by lia. cbn [obind]. destruct ((_ <? _) || _ || _) eqn:LE; [right; eauto|]. destruct (_ && _) eqn:RD; [|right; eauto]. left. unfold readable in RD. destruct (R ltac:(lia)) as [R1 R2]. set (n := fval false _) in *.
    destruct (sym_safe (Z.to_nat n) w (zsub (r_mem r) (r_so r + 68 + w) (n * w)) 0 (zsub (r_mem r) (r_so r + 68 + w + n * w) (u64 len - n * w))) as (l & -> & _); [lia|unfold zsub; apply bytes_ok_firstn, bytes_ok_skipn; exact B|lia| |rewrite Z2Nat.id by lia; exact R2|eauto]. clearbody n. rewrite Z2Nat.id by lia. assert (0 <= n * w) by nia. rewrite zsub_len; lia.
Qed.
