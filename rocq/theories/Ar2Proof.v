(* Proofs about archives: long names, exact contents, the symbol index. *)
From Verif Require Import Base LebModel ElfErr HashModel HashSpec HashProof DwModel SegProof Slice CfiSafe ArModel ArSpec ArProof.
Require Import ZArith List Lia Bool ZifyBool. Import ListNotations. Open Scope Z_scope.

(* ---- the search for the table ends ---- *)
Definition base (r : arc) : Z := if r_mapped r then 0 else r_so r.
(* the headers from a place on: each has the magic, and a size that is not negative, up to the
   table or the end *)
Inductive chained (r : arc) : Z -> Prop :=
| C_end o : r_mx r < o + 60 -> chained r o
| C_table o : znth (r_mem r) (base r + o + 58) = Some 96 -> zsub (r_mem r) (base r + o) 16 = padded [47; 47] -> chained r o
| C_step o n : znth (r_mem r) (base r + o + 58) = Some 96 -> atol (r_mem r) (base r + o + 48) = Ok n -> 0 <= n -> chained r (o + 60 + n + n mod 2) -> chained r o.
Lemma skip_local : forall mem q b, znth mem q = Some b -> stops b -> forall a n, 0 <= a -> a + n <= zlen mem -> forall f1 f2 p, a <= p <= q -> q < a + n -> (Z.to_nat (q - p) <= f1)%nat -> (Z.to_nat (q - p) <= f2)%nat ->
  exists p', skip_space f1 mem p = Ok p' /\ skip_space f2 (zsub mem a n) (p - a) = Ok (p' - a) /\ p <= p' <= q.
Proof.
  intros mem q b Q S a n A N. induction f1 as [|k IH]; intros f2 p P QN F1 F2.
  - replace p with q in * by lia. exists q. assert (G : forall f m x, znth m x = Some b -> skip_space f m x = Ok x).
    { intros f m x X. destruct f; cbn [skip_space]; unfold byte_at; rewrite X; cbn [obind]; (replace (isspace b) with false by (destruct S as [-> | ->]; reflexivity)); reflexivity. }
    split; [apply G; exact Q|]. split; [|lia]. apply G. rewrite znth_zsub by lia. replace (a + (q - a)) with q by lia. exact Q.
  - destruct (byte_ok mem p) as (c & BC & C). { pose proof (SegProof.znth_in _ _ _ _ Q). lia. } assert (BC2 : byte_at (zsub mem a n) (p - a) = Ok c) by (unfold byte_at; rewrite znth_zsub by lia; replace (a + (p - a)) with p by lia; rewrite C; reflexivity).
    cbn [skip_space]. rewrite BC. cbn [obind]. destruct (isspace c) eqn:I.
    + destruct (Z.eq_dec p q) as [->|NE]; [rewrite Q in C; injection C as <-; destruct S as [-> | ->]; discriminate|]. destruct f2 as [|f2]; [lia|]. cbn [skip_space]. rewrite BC2. cbn [obind]. rewrite I. destruct (IH f2 (p + 1)) as (p' & E1 & E2 & L); [lia..|]. exists p'. split; [exact E1|]. split; [|lia]. replace (p - a + 1) with (p + 1 - a) by lia. exact E2.
    + exists p. split; [reflexivity|]. split; [|lia]. destruct f2; cbn [skip_space]; rewrite BC2; cbn [obind]; rewrite I; reflexivity.
Qed.
Lemma digits_local : forall mem q b, znth mem q = Some b -> stops b -> forall a n, 0 <= a -> a + n <= zlen mem -> forall f1 f2 p acc, a <= p <= q -> q < a + n -> (Z.to_nat (q - p) <= f1)%nat -> (Z.to_nat (q - p) <= f2)%nat ->
  digits f2 (zsub mem a n) (p - a) acc = digits f1 mem p acc.
Proof.
  intros mem q b Q S a n A N. induction f1 as [|k IH]; intros f2 p acc P QN F1 F2.
  - replace p with q in * by lia. assert (G : forall f m x, znth m x = Some b -> digits f m x acc = Ok acc).
    { intros f m x X. destruct f; cbn [digits]; unfold byte_at; rewrite X; cbn [obind]; (replace (isdigit b) with false by (destruct S as [-> | ->]; reflexivity)); reflexivity. }
    rewrite !G; [reflexivity|exact Q|]. rewrite znth_zsub by lia. replace (a + (q - a)) with q by lia. exact Q.
  - destruct (byte_ok mem p) as (c & BC & C). { pose proof (SegProof.znth_in _ _ _ _ Q). lia. } assert (BC2 : byte_at (zsub mem a n) (p - a) = Ok c) by (unfold byte_at; rewrite znth_zsub by lia; replace (a + (p - a)) with p by lia; rewrite C; reflexivity).
    cbn [digits]. rewrite BC. cbn [obind]. destruct (isdigit c) eqn:I.
    + destruct (Z.eq_dec p q) as [->|NE]; [rewrite Q in C; injection C as <-; destruct S as [-> | ->]; discriminate|]. destruct f2 as [|f2]; [lia|]. cbn [digits]. rewrite BC2. cbn [obind]. rewrite I. replace (p - a + 1) with (p + 1 - a) by lia. apply IH; lia.
    + destruct f2; cbn [digits]; rewrite BC2; cbn [obind]; rewrite I; reflexivity.
Qed.
Lemma atol_local : forall mem q b a n p, znth mem q = Some b -> stops b -> 0 <= a -> a + n <= zlen mem -> a <= p <= q -> q < a + n -> atol (zsub mem a n) (p - a) = atol mem p.
Proof.
  intros mem q b a n p Q S A N P QN. assert (LN : zlen (zsub mem a n) = n) by (apply zsub_len; lia). unfold atol. assert (F1 : (Z.to_nat (q - p) <= length mem)%nat) by (unfold zlen in *; lia). assert (F2 : (Z.to_nat (q - p) <= length (zsub mem a n))%nat) by (unfold zlen in *; lia).
  destruct (skip_local mem q b Q S a n A N (length mem) (length (zsub mem a n)) p P QN F1 F2) as (p' & -> & -> & L). cbn [obind]. destruct (byte_ok mem p') as (c & BC & C). { pose proof (SegProof.znth_in _ _ _ _ Q). lia. } assert (BC2 : byte_at (zsub mem a n) (p' - a) = Ok c) by (unfold byte_at; rewrite znth_zsub by lia; replace (a + (p' - a)) with p' by lia; rewrite C; reflexivity). rewrite BC, BC2. cbn [obind].
  assert (NQ : c = 45 \/ c = 43 -> p' < q). { intros H. destruct (Z.eq_dec p' q) as [->|NE]; [rewrite Q in C; injection C as <-; destruct S as [-> | ->]; lia|lia]. }
  destruct (c =? 45) eqn:E1; [|destruct (c =? 43) eqn:E2]; try (replace (p' - a + 1) with (p' + 1 - a) by lia); rewrite (digits_local mem q b Q S a n A N (length mem)) by lia; reflexivity.
Qed.
Lemma even_up_eq : forall n, 0 <= n < two63 -> even_up n = n + n mod 2.
Proof. intros n N. exact (proj2 (even_up_small n N)). Qed.
Lemma pad_long : NAME_LONG = padded [47; 47]. Proof. reflexivity. Qed.
(* one look at a header *)
Lemma find_step : forall fuel r o, arc_ok r -> 8 <= o -> o + 60 <= r_mx r -> znth (r_mem r) (base r + o + 58) = Some 96 -> exists n, atol (r_mem r) (base r + o + 48) = Ok n /\ - two63 <= n < two63 /\
  find_long (S fuel) r o = if bytes_eqb (zsub (r_mem r) (base r + o) 16) NAME_LONG then Ok (Some (o, u64 n)) else find_long fuel r (s64 (o + SZ_HDR + even_up (u64 n))).
Proof.
  intros fuel r o (A & B & C & D & E) O L M. assert (BR : 0 <= base r /\ base r + o + 60 <= zlen (r_mem r)) by (unfold base; destruct (r_mapped r); [lia|specialize (E eq_refl); lia]).
  destruct (atol_stop (r_mem r) (base r + o + 48) (base r + o + 58) 96 M (or_introl eq_refl) ltac:(lia)) as (n & AT & NR). exists n. split; [exact AT|]. split; [exact NR|]. cbn [find_long].
  unfold base in *. destruct (r_mapped r).
  - rewrite Z.add_0_l in *. rewrite u64_small by lia. replace ((r_mx r <? o) || (r_mx r - o <? SZ_HDR)) with false by (unfold SZ_HDR; lia). rewrite AT. cbn [obind]. reflexivity.
  - specialize (E eq_refl). replace (readable r (r_so r + o) SZ_HDR) with true by (unfold readable, SZ_HDR; lia). cbn [negb]. unfold SZ_HDR at 1. replace 48 with ((r_so r + o + 48) - (r_so r + o)) by lia. rewrite (atol_local (r_mem r) (r_so r + o + 58) 96) by (try exact M; try (left; reflexivity); lia). rewrite AT. cbn [obind]. reflexivity.
Qed.
Lemma find_end : forall fuel r o, arc_ok r -> (o < 0 /\ o < - r_so r \/ r_mx r < o + 60) -> - two63 <= o < two63 -> find_long fuel r o = Ok None.
Proof.
  intros fuel r o (A & B & C & D & E) O OR. destruct fuel; cbn [find_long]; destruct (r_mapped r).
  1, 3: replace ((r_mx r <? u64 o) || (r_mx r - u64 o <? SZ_HDR)) with true; [reflexivity|]; symmetry; unfold SZ_HDR; destruct O as [O|O]; [pose proof (u64_neg o ltac:(lia)); lia|]; (destruct (Z_lt_le_dec o 0); [pose proof (u64_neg o ltac:(lia)); lia|rewrite u64_small by lia; lia]).
  all: specialize (E eq_refl); replace (readable r (r_so r + o) SZ_HDR) with false by (unfold readable, SZ_HDR; lia); reflexivity.
Qed.
Lemma s64_over : forall v, two63 <= v < two64 + two63 -> s64 v = v - two64.
Proof. intros v V. unfold s64. replace ((v + two63) mod two64) with (v + two63 - two64) by (apply (Z.mod_unique _ _ 1); lia). lia. Qed.
Lemma find_total : forall r o, arc_ok r -> chained r o -> 8 <= o < two63 -> forall fuel, (Z.to_nat (r_mx r - o) < fuel)%nat -> exists f, find_long fuel r o = Ok f /\ match f with None => True | Some (p, n) => 8 <= p /\ p + 60 <= r_mx r /\ 0 <= n < two64 end.
Proof.
  intros r o OK CH. pose proof OK as (A & B & C & D & E). induction CH as [o L|o M NM|o n M AT NN CH IH]; intros O fuel F.
  - exists None. split; [apply find_end; [exact OK|lia|lia]|exact Logic.I].
  - destruct fuel as [|fuel]; [lia|]. destruct (Z_lt_le_dec (r_mx r) (o + 60)) as [L|L]; [exists None; split; [apply find_end; [exact OK|lia|lia]|exact Logic.I]|]. destruct (find_step fuel r o OK ltac:(lia) L M) as (n & AT & NR & ->). rewrite NM, pad_long. replace (bytes_eqb (padded [47; 47]) (padded [47; 47])) with true by reflexivity. eexists. split; [reflexivity|]. cbn. split; [lia|]. split; [lia|]. unfold u64. apply Z.mod_pos_bound. lia.
  - destruct fuel as [|fuel]; [lia|]. destruct (Z_lt_le_dec (r_mx r) (o + 60)) as [L|L]; [exists None; split; [apply find_end; [exact OK|lia|lia]|exact Logic.I]|]. destruct (find_step fuel r o OK ltac:(lia) L M) as (n' & AT' & NR & ->). rewrite AT in AT'. injection AT' as <-. pose proof (Z.mod_pos_bound n 2 ltac:(lia)).
    rewrite (u64_small n) by lia. destruct (bytes_eqb _ _); [eexists; split; [reflexivity|]; cbn; lia|]. rewrite even_up_eq by lia. unfold SZ_HDR.
    destruct (Z_lt_le_dec (o + 60 + n + n mod 2) two63) as [OL|OL].
    + rewrite s64_small by lia. rewrite Z.add_assoc. apply IH; lia.
    + rewrite s64_over by lia. exists None. split; [apply find_end; [exact OK|left; lia|lia]|exact Logic.I].
Qed.
Lemma long_total : forall r, arc_ok r -> chained r 8 -> forall fuel, (length (r_mem r) < fuel)%nat -> exists x, read_long_names fuel r = Ok x.
Proof.
  intros r OK CH fuel F. pose proof OK as (A & B & C & D & E). destruct (find_total r 8 OK CH ltac:(lia) fuel) as (f & FE & FP); [unfold zlen in *; lia|]. unfold read_long_names. rewrite FE. cbn [obind]. destruct f as [[p n]|]; [|eauto]. destruct (if r_mapped r then _ else _); eauto.
Qed.

(* ---- the names in the table ---- *)
Definition cut (x : Z) : Z := if x =? 47 then 0 else x.
Lemma index_of_none : forall x l, index_of x l = None <-> Forall (fun y => y <> x) l.
Proof.
  intros x l. induction l as [|y l IH]; cbn [index_of]; [split; [constructor|reflexivity]|]. destruct (y =? x) eqn:E; [split; [discriminate|intro H; inversion H; lia]|]. destruct (index_of x l); cbn [option_map]; split; intro H; try discriminate; try reflexivity.
  - inversion H; subst. apply IH in H3. discriminate.
  - constructor; [lia|apply IH; reflexivity].
Qed.
Lemma index_of_app : forall x a b, Forall (fun y => y <> x) a -> index_of x (a ++ x :: b) = Some (length a).
Proof. intros x a b H. induction H as [|y a Y H IH]; cbn [app index_of length]; [rewrite Z.eqb_refl; reflexivity|]. replace (y =? x) with false by lia. rewrite IH. reflexivity. Qed.
Lemma index_of_some : forall x l i, index_of x l = Some i -> exists a b, l = a ++ x :: b /\ length a = i /\ Forall (fun y => y <> x) a.
Proof.
  intros x l. induction l as [|y l IH]; intros i H; cbn [index_of] in H; [discriminate|]. destruct (y =? x) eqn:E; [injection H as <-; exists [], l; replace y with x by lia; repeat split; constructor|]. destruct (index_of x l) as [j|]; [|discriminate]. injection H as <-. destruct (IH j eq_refl) as (a & b & -> & <- & F). exists (y :: a), b. repeat split. constructor; [lia|exact F].
Qed.
Lemma firstn_len_app : forall (A : Type) (a b : list A), firstn (length a) (a ++ b) = a.
Proof. intros A a b. induction a; cbn; [destruct b; reflexivity|congruence]. Qed.
Lemma skipn_len_app : forall (A : Type) (a b : list A), skipn (length a) (a ++ b) = b.
Proof. intros A a b. induction a; cbn; auto. Qed.
Lemma map_cut : forall a, Forall (fun y => y <> 47) a -> map cut a = a.
Proof. intros a H. induction H as [|y a Y H IH]; cbn [map]; [reflexivity|]. rewrite IH. unfold cut. replace (y =? 47) with false by lia. reflexivity. Qed.
Lemma terminate_app : forall n x b fuel, (length x <= n)%nat -> (length (x ++ 47%Z :: b) <= fuel)%nat -> exists f, terminate fuel (x ++ 47 :: b) = map cut x ++ 0 :: terminate f b /\ (length b <= f)%nat.
Proof.
  induction n as [|n IH]; intros x b fuel LN LF.
  - destruct x; [|cbn in LN; lia]. cbn [app length] in *. destruct fuel as [|k]; [lia|]. cbn [terminate index_of Z.eqb Pos.eqb firstn app map]. destruct (length (47%Z :: b) <=? 1)%nat eqn:L; cbn [length] in L.
    + exists k. split; [|lia]. destruct b; [|cbn in L; lia]. destruct k; reflexivity.
    + exists k. split; [reflexivity|lia].
  - destruct fuel as [|k]; [rewrite app_length in LF; cbn in LF; lia|]. cbn [terminate]. destruct (index_of 47 x) as [i|] eqn:IX.
    + destruct (index_of_some 47 x i IX) as (a & c & -> & LA & FA). rewrite <- app_assoc. cbn [app]. rewrite index_of_app by exact FA. rewrite firstn_len_app. replace (length (a ++ 47%Z :: c ++ 47%Z :: b) <=? S (length a))%nat with false by (symmetry; rewrite app_length; cbn [length]; rewrite app_length; cbn [length]; lia).
      replace (skipn (S (length a)) (a ++ 47 :: c ++ 47 :: b)) with (c ++ 47 :: b) by (replace (a ++ 47 :: c ++ 47 :: b) with ((a ++ [47]) ++ c ++ 47 :: b) by (rewrite <- app_assoc; reflexivity); replace (S (length a)) with (length (a ++ [47])) by (rewrite app_length; cbn; lia); rewrite skipn_len_app; reflexivity).
      rewrite !app_length in LF. rewrite app_length in LN. cbn [length] in LF, LN. destruct (IH c b k) as (f & E & LF2); [lia|rewrite app_length; cbn [length]; lia|]. exists f. split; [|exact LF2]. rewrite E. rewrite map_app. cbn [map]. rewrite (map_cut a FA). rewrite <- app_assoc. reflexivity.
    + apply index_of_none in IX. rewrite index_of_app by exact IX. rewrite firstn_len_app. rewrite (map_cut x IX). destruct (length (x ++ 47%Z :: b) <=? S (length x))%nat eqn:L; rewrite app_length in *; cbn [length] in *.
      * destruct b; [|cbn in L; lia]. exists 1%nat. split; [reflexivity|cbn; lia].
      * replace (skipn (S (length x)) (x ++ 47 :: b)) with b by (replace (x ++ 47 :: b) with ((x ++ [47]) ++ b) by (rewrite <- app_assoc; reflexivity); replace (S (length x)) with (length (x ++ [47])) by (rewrite app_length; cbn; lia); rewrite skipn_len_app; reflexivity). exists k. split; [reflexivity|lia].
Qed.
Lemma terminate_none : forall l fuel, Forall (fun y => y <> 47) l -> (length l <= fuel)%nat -> terminate fuel l = repeat 0 (length l).
Proof. intros l fuel H F. destruct fuel as [|k]; [destruct l; [reflexivity|cbn in F; lia]|]. cbn [terminate]. apply index_of_none in H. rewrite H. reflexivity. Qed.
Lemma terminate_length : forall fuel l, length (terminate fuel l) = length l.
Proof.
  induction fuel as [|k IH]; intro l; cbn [terminate]; [reflexivity|]. destruct (index_of 47 l) as [i|] eqn:IX; [|apply repeat_length]. destruct (index_of_some _ _ _ IX) as (a & b & -> & <- & FA). rewrite firstn_len_app. replace (skipn (S (length a)) (a ++ 47 :: b)) with b by (replace (a ++ 47 :: b) with ((a ++ [47]) ++ b) by (rewrite <- app_assoc; reflexivity); replace (S (length a)) with (length (a ++ [47])) by (rewrite app_length; cbn; lia); rewrite skipn_len_app; reflexivity).
  rewrite !app_length. cbn [length]. destruct (_ <=? _)%nat eqn:L; [destruct b; cbn in *; [reflexivity|lia]|rewrite IH; reflexivity].
Qed.
Definition termd (l : bytes) : bytes := terminate (S (length l)) l.
Lemma termd_slash : forall a n b, Forall (fun y => y <> 47) n -> exists rest, skipn (length a) (termd (a ++ n ++ 47 :: b)) = n ++ 0 :: rest.
Proof.
  intros a n b F. unfold termd. rewrite (app_assoc a n (47 :: b)). destruct (terminate_app (length (a ++ n)) (a ++ n) b (S (length ((a ++ n) ++ 47 :: b)))) as (f & -> & _); [lia|lia|]. rewrite map_app, <- app_assoc. rewrite (map_cut n F). replace (length a) with (length (map cut a)) by apply map_length. rewrite skipn_len_app. eauto.
Qed.
Lemma repeat_app' : forall (A : Type) (x : A) n m, repeat x (n + m) = repeat x n ++ repeat x m.
Proof. intros A x n m. induction n; cbn; [reflexivity|congruence]. Qed.
Lemma termd_none : forall a n, Forall (fun y => y <> 47) n -> skipn (length a) (termd (a ++ n)) = repeat 0 (length n).
Proof.
  intros a n F. unfold termd. destruct (index_of 47 (rev a)) as [i|] eqn:IX.
  - destruct (index_of_some _ _ _ IX) as (a2 & a1 & E & LA & FA). assert (E2 : a = rev a1 ++ 47 :: rev a2) by (rewrite <- (rev_involutive a), E, rev_app_distr; cbn [rev]; rewrite <- app_assoc; reflexivity).
    rewrite E2. rewrite <- app_assoc. cbn [app]. destruct (terminate_app (length (rev a1)) (rev a1) (rev a2 ++ n) (S (length (rev a1 ++ 47 :: rev a2 ++ n)))) as (f & -> & LF); [lia|lia|]. rewrite terminate_none; [|apply Forall_app; split; [apply Forall_rev; exact FA|exact F]|exact LF]. rewrite (app_length (rev a2) n), repeat_app'.
    replace (map cut (rev a1) ++ 0 :: repeat 0 (length (rev a2)) ++ repeat 0 (length n)) with ((map cut (rev a1) ++ 0 :: repeat 0 (length (rev a2))) ++ repeat 0 (length n)) by (rewrite <- app_assoc; reflexivity).
    replace (length (rev a1 ++ 47 :: rev a2)) with (length (map cut (rev a1) ++ 0 :: repeat 0 (length (rev a2)))) by (rewrite !app_length; cbn [length]; rewrite map_length, repeat_length; reflexivity). apply skipn_len_app.
  - apply index_of_none in IX. assert (FA : Forall (fun y => y <> 47) a) by (rewrite <- (rev_involutive a); apply Forall_rev; exact IX). rewrite terminate_none; [|apply Forall_app; split; assumption|lia]. rewrite app_length, repeat_app'. rewrite <- (repeat_length 0 (length a)) at 1. apply skipn_len_app.
Qed.
Lemma cstr_app : forall n rest, Forall (fun y => y <> 0) n -> cstr (n ++ 0 :: rest) = n.
Proof. intros n rest F. unfold cstr. rewrite index_of_app by exact F. apply firstn_len_app. Qed.
Lemma cstr_none : forall n, Forall (fun y => y <> 0) n -> cstr n = n.
Proof. intros n F. unfold cstr. apply index_of_none in F. rewrite F. reflexivity. Qed.

(* ---- fields ---- *)
Lemma at_cons_znth : forall mem p x l, at_ mem p (x :: l) -> znth mem p = Some x /\ at_ mem (p + 1) l.
Proof.
  intros mem p x l A. split; [|apply (at_app2 mem p [x] l A)]. destruct A as (P & L & E). rewrite zlen_cons in *. pose proof (zlen_nonneg _ l). assert (Z0 : znth (zsub mem p (1 + zlen l)) 0 = Some x) by (rewrite E; reflexivity). rewrite znth_zsub in Z0 by lia. rewrite Z.add_0_r in Z0. exact Z0.
Qed.
Lemma digits_at : forall ds mem p c acc fuel, at_ mem p (ds ++ [c]) -> Forall digit ds -> ~ digit c -> (length ds <= fuel)%nat -> digits fuel mem p acc = Ok (fold_left (fun a b => a * 10 + (b - 48)) ds acc).
Proof.
  induction ds as [|d ds IH]; intros mem p c acc fuel A F NC L; cbn [app] in A; apply at_cons_znth in A; destruct A as [B A].
  - destruct fuel; cbn [digits fold_left]; unfold byte_at; rewrite B; cbn [obind]; (replace (isdigit c) with false by (unfold digit, isdigit in *; lia)); reflexivity.
  - destruct fuel as [|k]; [cbn in L; lia|]. cbn [digits fold_left]. unfold byte_at. rewrite B. cbn [obind]. inversion F; subst. replace (isdigit d) with true by (unfold digit, isdigit in *; lia). apply (IH mem (p + 1) c); auto. cbn in L. lia.
Qed.
Lemma dec_acc : forall ds acc, fold_left (fun a b => a * 10 + (b - 48)) ds acc = acc * 10 ^ Z.of_nat (length ds) + dec ds.
Proof.
  unfold dec. induction ds as [|d ds IH]; intro acc; cbn [fold_left length]; [lia|]. rewrite (IH (acc * 10 + (d - 48))), (IH (0 * 10 + (d - 48))). rewrite Nat2Z.inj_succ, Z.pow_succ_r by lia. lia.
Qed.
Lemma dec_bound : forall ds, Forall digit ds -> 0 <= dec ds < 10 ^ Z.of_nat (length ds).
Proof.
  induction ds as [|d ds IH]; intro F; [cbn; lia|]. inversion F; subst. specialize (IH H2). unfold dec in *. cbn [fold_left length]. rewrite dec_acc. rewrite Nat2Z.inj_succ, Z.pow_succ_r by lia. unfold dec, digit in *. nia.
Qed.
Lemma atol_at : forall ds mem p c, at_ mem p (ds ++ [c]) -> ds <> [] -> Forall digit ds -> ~ digit c -> atol mem p = Ok (clamp (dec ds)).
Proof.
  intros ds mem p c A NE F NC. unfold atol. pose proof (at_bound _ _ _ A) as [P L]. rewrite zlen_app, zlen_cons in L. change (zlen (@nil Z)) with 0 in L. destruct ds as [|d ds]; [congruence|]. pose proof A as A0. cbn [app] in A. apply at_cons_znth in A. destruct A as [B A]. inversion F; subst.
  assert (SK : skip_space (length mem) mem p = Ok p) by (destruct (length mem); cbn [skip_space]; unfold byte_at; rewrite B; cbn [obind]; (replace (isspace d) with false by (unfold isspace, digit in *; lia)); reflexivity). rewrite SK. cbn [obind]. unfold byte_at. rewrite B. cbn [obind]. replace (d =? 45) with false by (unfold digit in *; lia). replace (d =? 43) with false by (unfold digit in *; lia).
  rewrite (digits_at (d :: ds) mem p c 0); [reflexivity|exact A0|exact F|exact NC|]. unfold zlen in L. lia.
Qed.
Lemma pow10_mono : forall a b, 0 <= a <= b -> 10 ^ a <= 10 ^ b.
Proof. intros. apply Z.pow_le_mono_r; lia. Qed.
Lemma text_field : forall mem p n b ds k, at_ mem p b -> b = ds ++ repeat 32 k -> zlen b = n -> ds <> [] -> Forall digit ds -> n <= 18 -> int_field mem p n = Ok (dec ds) /\ 0 <= dec ds < 10 ^ n.
Proof.
  intros mem p n b ds k A E L NE F N. pose proof (dec_bound ds F) as DB. assert (LD : Z.of_nat (length ds) <= n) by (subst b; rewrite zlen_app in L; pose proof (zlen_nonneg _ (repeat 32 k)); unfold zlen in *; lia). pose proof (pow10_mono (Z.of_nat (length ds)) n ltac:(lia)). split; [|lia]. pose proof (pow10_mono n 18 ltac:(lia)). assert (CL : clamp (dec ds) = dec ds) by (apply clamp_small; change (10 ^ 18) with 1000000000000000000 in *; lia).
  assert (DL : 0 < zlen ds) by (destruct ds; [congruence|rewrite zlen_cons; pose proof (zlen_nonneg _ ds); lia]).
  assert (N1 : 0 < n) by (subst b; rewrite zlen_app in L; pose proof (zlen_nonneg _ (repeat 32 k)); lia).
  assert (LB : znth mem (p + n - 1) = znth b (n - 1)). { destruct A as (P & PL & AE). rewrite <- AE. rewrite L. rewrite znth_zsub by lia. f_equal. lia. }
  unfold int_field, byte_at. rewrite LB. destruct k as [|k].
  - cbn [repeat] in E. rewrite app_nil_r in E. subst b. destruct (Base.znth_in _ ds (n - 1) ltac:(lia)) as [x X]. rewrite X. cbn [obind]. assert (DX : digit x) by (apply (proj1 (Forall_forall _ _) F); exact (proj1 (SegProof.znth_in _ _ _ _ X))). replace (x =? 32) with false by (unfold digit in DX; lia).
    destruct A as (P & PL & AE). rewrite <- L, AE. rewrite (atol_at ds _ 0 0); [rewrite CL; reflexivity|apply at_all|exact NE|exact F|unfold digit; lia].
  - assert (X : znth b (n - 1) = Some 32). { rewrite E. replace (repeat 32 (S k)) with (repeat 32 k ++ [32]) by (change [32] with (repeat 32 1); rewrite <- repeat_app'; f_equal; lia). rewrite app_assoc. rewrite znth_app_r; [|subst b; rewrite zlen_app in *; rewrite zlen_repeat in *; lia]. replace (n - 1 - zlen (ds ++ repeat 32 k)) with 0; [reflexivity|]. subst b. rewrite zlen_app in *. rewrite zlen_repeat in *. lia. }
    rewrite X. cbn [obind Z.eqb Pos.eqb]. rewrite (atol_at ds mem p 32); [rewrite CL; reflexivity| |exact NE|exact F|unfold digit; lia]. subst b. cbn [repeat] in A. replace (ds ++ 32 :: repeat 32 k) with ((ds ++ [32]) ++ repeat 32 k) in A by (rewrite <- app_assoc; reflexivity). exact (at_app1 _ _ _ _ A).
Qed.
Lemma field_ok : forall mem p n v b, at_ mem p b -> field n v b -> n <= 18 -> int_field mem p n = Ok v /\ 0 <= v < 10 ^ n.
Proof. intros mem p n v b A (ds & k & NE & F & <- & E & L) N. exact (text_field mem p n b ds k A E L NE F N). Qed.

(* ---- names ---- *)
Lemma at_zsub : forall mem p b, at_ mem p b -> zsub mem p (zlen b) = b. Proof. intros mem p b (_ & _ & E). exact E. Qed.
Lemma strip_blanks : forall k l, strip (repeat 32 k ++ l) = strip l.
Proof. intros k l. induction k; cbn; auto. Qed.
Lemma strip_stop : forall x l, x <> 32 -> strip (x :: l) = x :: l.
Proof. intros x l H. cbn. replace (x =? 32) with false by lia. reflexivity. Qed.
Lemma rev_repeat' : forall (A : Type) (x : A) k, rev (repeat x k) = repeat x k.
Proof.
  intros A x k. induction k as [|k IH]; [reflexivity|]. cbn [repeat rev]. rewrite IH. change [x] with (repeat x 1). rewrite <- repeat_app'. replace (k + 1)%nat with (S k) by lia. reflexivity.
Qed.
Lemma plain_slash : forall n, Forall plain n -> Forall (fun y => y <> 47) n.
Proof. intros n F. eapply Forall_impl; [|exact F]. intros a [H _]. exact H. Qed.
Lemma plain_nul : forall n, Forall plain n -> Forall (fun y => y <> 0) n.
Proof. intros n F. eapply Forall_impl; [|exact F]. intros a [_ H]. exact H. Qed.
Lemma short_slash : forall n, Forall plain n -> short_name (padded (n ++ [47])) = n.
Proof.
  intros n F. unfold short_name, padded. rewrite <- app_assoc. cbn [app]. rewrite index_of_app by (apply plain_slash; exact F). rewrite firstn_len_app. apply cstr_none. apply plain_nul. exact F.
Qed.
Lemma short_blank : forall n x, Forall plain (n ++ [x]) -> x <> 32 -> (length n < 15)%nat -> short_name (padded (n ++ [x])) = n ++ [x].
Proof.
  intros n x F X L. unfold short_name, padded. assert (NS : Forall (fun y => y <> 47) ((n ++ [x]) ++ repeat 32 (16 - length (n ++ [x])))).
  { apply Forall_app. split; [apply plain_slash; exact F|]. apply Forall_forall. intros y Y. apply repeat_spec in Y. subst y. lia. }
  apply index_of_none in NS. rewrite NS. rewrite app_length. cbn [length]. replace (16 - (length n + 1))%nat with ((14 - length n) + 1)%nat by lia. rewrite repeat_app', app_assoc. assert (L15 : length ((n ++ [x]) ++ repeat 32 (14 - length n)) = 15%nat) by (rewrite !app_length, repeat_length; cbn [length]; lia). rewrite <- L15 at 1. rewrite firstn_len_app.
  rewrite rev_app_distr, rev_repeat', strip_blanks, rev_app_distr. cbn [rev app]. rewrite strip_stop by exact X. cbn [rev]. rewrite rev_involutive. apply cstr_none. apply plain_nul. exact F.
Qed.
Definition long_is (fuel : nat) (r : arc) (tab : option bytes) (long : option bytes) : Prop :=
  (long = None \/ long = option_map termd tab) /\ read_long_names fuel r = Ok (option_map termd tab).
Lemma zlen_padded : forall l, (length l <= 16)%nat -> zlen (padded l) = 16.
Proof. intros l L. unfold padded. rewrite zlen_app, zlen_repeat. unfold zlen. lia. Qed.
Lemma at_name : forall mem p nm, at_ mem p nm -> zlen nm = 16 -> zsub mem p 16 = nm.
Proof. intros mem p nm A L. rewrite <- L. apply at_zsub. exact A. Qed.
Lemma first_two : forall mem p a b l, at_ mem p (a :: b :: l) -> byte_at mem p = Ok a /\ byte_at mem (p + 1) = Ok b.
Proof. intros mem p a b l A. apply at_cons_znth in A. destruct A as [A1 A]. apply at_cons_znth in A. destruct A as [A2 A]. unfold byte_at. rewrite A1, A2. split; reflexivity. Qed.
Lemma name_exact : forall fuel r off long tab nm n, named tab nm n -> long_is fuel r tab long -> at_ (r_mem r) off nm -> (forall t, tab = Some t -> zlen t < two63) -> exists long', name_of fuel r off long = Ok (Some n, long') /\ long_is fuel r tab long'.
Proof.
  intros fuel r off long tab nm n N LI A TL. assert (L16 : zlen nm = 16).
  { destruct N; apply zlen_padded; try (rewrite app_length; cbn [length]; lia); cbn [length]; lia. }
  unfold name_of. rewrite (at_name _ _ _ A L16). destruct N as [n NE F L|n x F X L| | | |tab' a n b ds TE NE FD LD DE TAB F].
  - rewrite short_slash by exact F. destruct n as [|c n]; [congruence|]. inversion F as [|? ? [P1 P2] F']; subst. assert (TW : exists d l, padded ((c :: n) ++ [47]) = c :: d :: l) by (destruct n; do 2 eexists; reflexivity). destruct TW as (d & l & TW). rewrite TW in A. destruct (first_two _ _ _ _ _ A) as [-> ->]. cbn [obind]. replace (c =? 47) with false by lia. eexists. split; [reflexivity|exact LI].
  - rewrite (short_blank n x F X L). assert (TW : exists c d l, padded (n ++ [x]) = c :: d :: l /\ c <> 47). { destruct n as [|c n]; [inversion F as [|? ? [P1 P2] F']; subst; do 3 eexists; split; [reflexivity|exact P1]|]. inversion F as [|? ? [P1 P2] F']; subst. destruct n; do 3 eexists; (split; [reflexivity|exact P1]). }
    destruct TW as (c & d & l & TW & C). rewrite TW in A. destruct (first_two _ _ _ _ _ A) as [-> ->]. cbn [obind]. replace (c =? 47) with false by lia. eexists. split; [reflexivity|exact LI].
  - destruct (first_two _ _ _ _ _ A) as [-> ->]. cbn [obind]. eexists. split; [reflexivity|exact LI].
  - destruct (first_two _ _ _ _ _ A) as [-> ->]. cbn [obind]. eexists. split; [reflexivity|exact LI].
  - destruct (first_two _ _ _ _ _ A) as [-> ->]. cbn [obind]. eexists. split; [reflexivity|exact LI].
  - destruct ds as [|d ds]; [congruence|]. inversion FD as [|? ? D1 D2]; subst. destruct (first_two _ _ _ _ _ A) as [-> ->]. cbn [obind]. change (47 =? 47) with true. cbn iota. unfold digit in D1. replace (d =? 32) with false by lia. replace (d =? 83) with false by lia. replace (d =? 47) with false by lia. cbn [andb]. replace (isdigit d) with true by (unfold isdigit; lia).
    destruct LI as [LI RL]. assert (LX : (match long with Some t => Ok (Some t) | None => read_long_names fuel r end) = Ok (Some (termd (a ++ n ++ 47 :: b)))) by (destruct LI as [-> | ->]; [exact RL|reflexivity]). rewrite LX. cbn [obind].
    assert (AT : at_ (r_mem r) (off + 1) ((d :: ds) ++ [32])).
    { unfold padded in A. change ((47 :: d :: ds) ++ repeat 32 (16 - length (47 :: d :: ds))) with ([47] ++ ((d :: ds) ++ repeat 32 (16 - length (47 :: d :: ds)))) in A. apply at_app2 in A. change (zlen [47]) with 1 in A. replace (16 - length (47%Z :: d :: ds))%nat with (1 + (15 - length (47%Z :: d :: ds)))%nat in A by (cbn [length] in *; lia). rewrite repeat_app', app_assoc in A. exact (at_app1 _ _ _ _ A). }
    rewrite (atol_at (d :: ds) (r_mem r) (off + 1) 32 AT) by (try discriminate; try assumption; unfold digit; lia). cbn [obind]. specialize (TL _ eq_refl). rewrite !zlen_app, zlen_cons in TL. pose proof (zlen_nonneg _ a). pose proof (zlen_nonneg _ n). pose proof (zlen_nonneg _ b). rewrite DE. rewrite clamp_small by lia. rewrite u64_small by lia.
    assert (ZL : zlen (termd (a ++ n ++ 47 :: b)) = zlen a + (zlen n + (1 + zlen b))) by (unfold termd, zlen at 1; rewrite terminate_length; fold (zlen (a ++ n ++ 47 :: b)); rewrite !zlen_app, zlen_cons; reflexivity). rewrite ZL. replace (zlen a + (zlen n + (1 + zlen b)) <=? zlen a) with false by lia.
    destruct (termd_slash a n b (plain_slash n F)) as [rest TS]. replace (Z.to_nat (zlen a)) with (length a) by (unfold zlen; lia). rewrite TS, cstr_app by (apply plain_nul; exact F). eexists. split; [reflexivity|]. split; [right; reflexivity|exact RL].
Qed.

(* ---- members ---- *)
Lemma header_len : forall m h, header m h -> zlen h = 60.
Proof.
  intros m h (d & u & g & s & N & M & D & U & G & S0 & _ & ->). destruct D as (? & ? & _ & _ & _ & _ & D). destruct U as (? & ? & _ & _ & _ & _ & U). destruct G as (? & ? & _ & _ & _ & _ & G). destruct S0 as (? & ? & _ & _ & _ & _ & S0). rewrite !zlen_app, N, M, D, U, G, S0. reflexivity.
Qed.
Record decoded (mem : bytes) (o : Z) (m : member) : Prop := {
  d_name : at_ mem o (m_name m); d_nlen : zlen (m_name m) = 16;
  d_date : int_field mem (o + 16) 12 = Ok (m_date m);
  d_uid : int_field mem (o + 28) 6 = Ok (m_uid m) /\ 0 <= m_uid m < two32;
  d_gid : int_field mem (o + 34) 6 = Ok (m_gid m) /\ 0 <= m_gid m < two32;
  d_mode : exists ds k, m_mode m = ds ++ repeat 32 k /\ Forall digit ds /\ ds <> [] /\ int_field mem (o + 40) 8 = Ok (dec ds) /\ 0 <= dec ds < two32;
  d_size : int_field mem (o + 48) 10 = Ok (zlen (m_data m)) /\ atol mem (o + 48) = Ok (zlen (m_data m));
  d_first : exists c, byte_at mem (o + 48) = Ok c /\ c <> 32;
  d_magic : zsub mem (o + 58) 2 = [96; 10] }.
Lemma header_dec : forall mem o m h, at_ mem o h -> header m h -> decoded mem o m.
Proof.
  intros mem o m h A (d & u & g & s & N & M & D & U & G & SZ & (mds & mk & MNE & MF & ME) & ->).
  pose proof (at_app1 _ _ _ _ A) as A0. apply at_app2 in A. rewrite N in A. pose proof (at_app1 _ _ _ _ A) as A1. apply at_app2 in A. assert (LD : zlen d = 12) by (destruct D as (? & ? & _ & _ & _ & _ & D); exact D). rewrite LD in A. pose proof (at_app1 _ _ _ _ A) as A2. apply at_app2 in A. assert (LU : zlen u = 6) by (destruct U as (? & ? & _ & _ & _ & _ & U); exact U). rewrite LU in A.
  pose proof (at_app1 _ _ _ _ A) as A3. apply at_app2 in A. assert (LG : zlen g = 6) by (destruct G as (? & ? & _ & _ & _ & _ & G); exact G). rewrite LG in A. pose proof (at_app1 _ _ _ _ A) as A4. apply at_app2 in A. rewrite M in A. pose proof (at_app1 _ _ _ _ A) as A5. pose proof A as A56. apply at_app2 in A. assert (LS : zlen s = 10) by (destruct SZ as (? & ? & _ & _ & _ & _ & SZ); exact SZ). rewrite LS in A.
  replace (o + 16 + 12) with (o + 28) in * by lia. replace (o + 28 + 6) with (o + 34) in * by lia. replace (o + 34 + 6) with (o + 40) in * by lia. replace (o + 40 + 8) with (o + 48) in * by lia. replace (o + 48 + 10) with (o + 58) in * by lia.
  destruct (field_ok _ _ _ _ _ A1 D ltac:(lia)) as [F1 _]. destruct (field_ok _ _ _ _ _ A2 U ltac:(lia)) as [F2 B2]. destruct (field_ok _ _ _ _ _ A3 G ltac:(lia)) as [F3 B3]. destruct (text_field _ _ 8 _ _ _ A4 ME M MNE MF ltac:(lia)) as [F4 B4]. destruct (field_ok _ _ _ _ _ A5 SZ ltac:(lia)) as [F5 B5]. change (10 ^ 6) with 1000000 in *. change (10 ^ 8) with 100000000 in *. change (10 ^ 10) with 10000000000 in *.
  constructor; try assumption; try (split; [assumption|lia]).
  - exists mds, mk. repeat split; try assumption; lia.
  - split; [exact F5|]. destruct SZ as (ds & k & NE & FD & DE & E & L). rewrite (atol_at ds mem (o + 48) (match k with O => 96 | S _ => 32 end)); [rewrite DE; rewrite clamp_small by lia; reflexivity| |exact NE|exact FD|destruct k; unfold digit; lia].
    subst s. destruct k as [|k]; cbn [repeat] in A56; [rewrite app_nil_r in A56; change [96; 10] with ([96] ++ [10]) in A56; rewrite app_assoc in A56; exact (at_app1 _ _ _ _ A56)|]. replace ((ds ++ 32 :: repeat 32 k) ++ [96; 10]) with ((ds ++ [32]) ++ repeat 32 k ++ [96; 10]) in A56 by (rewrite <- !app_assoc; reflexivity). exact (at_app1 _ _ _ _ A56).
  - destruct SZ as (ds & k & NE & FD & DE & E & L). subst s. destruct ds as [|c ds]; [congruence|]. cbn [app] in A5. apply at_cons_znth in A5. destruct A5 as [A5 _]. exists c. unfold byte_at. rewrite A5. split; [reflexivity|]. inversion FD; subst. unfold digit in *. lia.
  - change 2 with (zlen [96; 10]). apply at_zsub. exact A.
Qed.
Lemma size_small : forall m h, header m h -> zlen (m_data m) < 10 ^ 10.
Proof.
  intros m h (d & u & g & s & N & M & D & U & G & SZ & _ & E). destruct SZ as (ds & k & NE & FD & DE & E2 & L). pose proof (dec_bound ds FD). assert (LD : Z.of_nat (length ds) <= 10) by (subst s; rewrite zlen_app in L; pose proof (zlen_nonneg _ (repeat 32 k)); unfold zlen in *; lia). pose proof (pow10_mono (Z.of_nat (length ds)) 10 ltac:(lia)). lia.
Qed.
(* the table *)
Lemma eqb_refl' : forall l, bytes_eqb l l = true. Proof. intro l. apply bytes_eqb_spec. reflexivity. Qed.
Lemma find_member : forall fuel r o m h, arc_ok r -> 8 <= o -> o + 60 <= r_mx r -> at_ (r_mem r) (base r + o) h -> header m h ->
  find_long (S fuel) r o = if list_eq_dec Z.eq_dec (m_name m) (padded [47; 47]) then Ok (Some (o, zlen (m_data m))) else find_long fuel r (s64 (o + 60 + even_up (zlen (m_data m)))).
Proof.
  intros fuel r o m h OK O L A H. pose proof (header_dec _ _ _ _ A H) as D. pose proof (d_magic _ _ _ D) as MG. pose proof (at_bound _ _ _ A) as AB. rewrite (header_len _ _ H) in AB. apply magic_at in MG; [|lia|lia]. destruct (find_step fuel r o OK O L MG) as (n & AT & NR & ->). rewrite (proj2 (d_size _ _ _ D)) in AT. injection AT as <-. pose proof (zlen_nonneg _ (m_data m)). rewrite (u64_small (zlen (m_data m))) by lia.
  rewrite (at_name _ _ _ (d_name _ _ _ D) (d_nlen _ _ _ D)). rewrite pad_long. unfold bytes_eqb. destruct (list_eq_dec _ _ _); reflexivity.
Qed.
Lemma find_exact : forall r ms body, arc_ok r -> members ms body -> forall o fuel, at_ (r_mem r) (base r + o) body -> 8 <= o -> o + zlen body = r_mx r \/ ms = [] /\ r_mx r <= o < two63 -> (Z.to_nat (r_mx r - o) < fuel)%nat ->
  match table ms with None => find_long fuel r o = Ok None | Some tab => exists p, find_long fuel r o = Ok (Some (p, zlen tab)) /\ at_ (r_mem r) (base r + p + 60) tab /\ 8 <= p /\ p + 60 + zlen tab <= r_mx r end.
Proof.
  intros r ms body OK MB. pose proof OK as (A0 & B0 & C0 & D0 & E0). induction MB as [|m h H|m h pad l b H PD MB IH]; intros o fuel A O END F; cbn [table].
  - apply find_end; [exact OK| |]; change (zlen (@nil Z)) with 0 in END; lia.
  - destruct END as [END|[END _]]; [|discriminate]. rewrite zlen_app, (header_len _ _ H) in END. pose proof (zlen_nonneg _ (m_data m)). destruct fuel as [|fuel]; [lia|]. rewrite (find_member fuel r o m h OK O ltac:(lia) (at_app1 _ _ _ _ A) H). apply at_app2 in A. rewrite (header_len _ _ H) in A.
    destruct (list_eq_dec _ _ _); [exists o; split; [reflexivity|]; split; [exact A|lia]|]. rewrite even_up_eq by lia. pose proof (Z.mod_pos_bound (zlen (m_data m)) 2 ltac:(lia)). rewrite s64_small by lia. apply find_end; [exact OK|lia|lia].
  - destruct END as [END|[END _]]; [|discriminate]. rewrite !zlen_app, (header_len _ _ H), PD in END. pose proof (zlen_nonneg _ (m_data m)). pose proof (Z.mod_pos_bound (zlen (m_data m)) 2 ltac:(lia)). pose proof (zlen_nonneg _ b). destruct fuel as [|fuel]; [lia|]. rewrite (find_member fuel r o m h OK O ltac:(lia) (at_app1 _ _ _ _ A) H). apply at_app2 in A. rewrite (header_len _ _ H) in A.
    destruct (list_eq_dec _ _ _); [exists o; split; [reflexivity|]; split; [exact (at_app1 _ _ _ _ A)|lia]|]. rewrite even_up_eq by lia. rewrite s64_small by lia. apply at_app2 in A. apply at_app2 in A. rewrite PD in A. apply IH; [|lia|lia|lia]. replace (base r + (o + 60 + (zlen (m_data m) + zlen (m_data m) mod 2))) with (base r + o + 60 + zlen (m_data m) + zlen (m_data m) mod 2) by lia. exact A.
Qed.
Lemma long_exact : forall r ms body fuel, arc_ok r -> members ms body -> at_ (r_mem r) (base r + 8) body -> 8 + zlen body = r_mx r -> (length (r_mem r) < fuel)%nat -> read_long_names fuel r = Ok (option_map termd (table ms)).
Proof.
  intros r ms body fuel OK MB A END F. pose proof OK as (A0 & B0 & C0 & D0 & E0). pose proof (find_exact r ms body OK MB 8 fuel A ltac:(lia) (or_introl END)) as FE. unfold read_long_names. destruct (table ms) as [tab|].
  - destruct FE as (p & -> & AT & P & L); [unfold zlen in *; lia|]. cbn [obind option_map]. pose proof (zlen_nonneg _ tab). pose proof (at_bound _ _ _ AT). unfold base in *. unfold SZ_HDR. destruct (r_mapped r).
    + replace (r_mx r - p - 60 <? zlen tab) with false by lia. rewrite Z.add_0_l in AT. rewrite (at_zsub _ _ _ AT). reflexivity.
    + replace (readable r (r_so r + p + 60) (zlen tab)) with true by (unfold readable; lia). cbn [negb]. rewrite (at_zsub _ _ _ AT). reflexivity.
  - rewrite FE by (unfold zlen in *; lia). reflexivity.
Qed.
(* one header, exactly *)
Definition shows_hdr (m : member) (n : bytes) (h : arhdr) : Prop :=
  h_name h = Some n /\ h_raw h = cstr (m_name m) /\ h_date h = m_date m /\ h_uid h = m_uid m /\ h_gid h = m_gid m /\ h_size h = zlen (m_data m) /\ exists ds k, m_mode m = ds ++ repeat 32 k /\ ds <> [] /\ Forall digit ds /\ h_mode h = dec ds.
Lemma next_exact : forall fuel r s tab m h n, arc_ok r -> 0 <= t_off s -> at_ (r_mem r) (t_off s) h -> header m h -> t_off s + 60 + zlen (m_data m) <= ends r -> named tab (m_name m) n -> long_is fuel r tab (t_long s) -> (forall t, tab = Some t -> zlen t < two63) ->
  exists s', next_arhdr fuel r s = Ok (0, s') /\ t_off s' = t_off s /\ long_is fuel r tab (t_long s') /\ shows_hdr m n (t_hdr s').
Proof.
  intros fuel r s tab m h n OK O A H L N LI TL. pose proof OK as (A0 & B0 & C0 & D0 & E0). unfold ends in L. pose proof (zlen_nonneg _ (m_data m)). pose proof (header_dec _ _ _ _ A H) as D. unfold next_arhdr.
  pose proof (in_file_spec r (t_off s) OK ltac:(lia)) as IF. unfold in_file in IF. rewrite negb_true_iff in IF. destruct IF as [_ IF]. rewrite IF by (unfold ends; lia). rewrite (d_magic _ _ _ D). change (bytes_eqb [96; 10] [96; 10]) with true. cbn [negb].
  destruct (name_exact fuel r (t_off s) (t_long s) tab (m_name m) n N LI (d_name _ _ _ D) TL) as (long' & -> & LI'). cbn [obind]. destruct (d_first _ _ _ D) as (c & -> & C). cbn [obind]. replace (c =? 32) with false by lia. rewrite (d_date _ _ _ D). destruct (d_uid _ _ _ D) as [-> U]. destruct (d_gid _ _ _ D) as [-> G]. destruct (d_mode _ _ _ D) as (ds & k & ME & MF & MNE & -> & MB). rewrite (proj1 (d_size _ _ _ D)). cbn [obind].
  replace (zlen (m_data m) <? 0) with false by lia. unfold SZ_HDR. rewrite u64_small by lia. replace (r_so r + r_mx r - t_off s - 60 <? zlen (m_data m)) with false by lia. eexists. split; [reflexivity|]. split; [reflexivity|]. split; [exact LI'|]. unfold shows_hdr. cbn [t_hdr h_name h_raw h_date h_uid h_gid h_size h_mode].
  rewrite (at_name _ _ _ (d_name _ _ _ D) (d_nlen _ _ _ D)). split; [reflexivity|]. split; [reflexivity|]. split; [reflexivity|]. split; [unfold u32; apply Z.mod_small; lia|]. split; [unfold u32; apply Z.mod_small; lia|]. split; [reflexivity|]. exists ds, k. split; [exact ME|]. split; [exact MNE|]. split; [exact MF|]. unfold u32. apply Z.mod_small. lia.
Qed.
Lemma next_end : forall fuel r s, arc_ok r -> ends r <= t_off s < two63 -> next_arhdr fuel r s = Ok (ELF_E_RANGE, s).
Proof.
  intros fuel r s OK O. pose proof OK as (A0 & B0 & C0 & D0 & E0). unfold next_arhdr. pose proof (in_file_spec r (t_off s) OK) as IF. unfold in_file in IF. unfold ends in *. rewrite negb_true_iff in IF. match goal with |- context [if ?x then Ok (ELF_E_RANGE, _) else _] => destruct x end; [reflexivity|]. destruct IF as [IF _]; [lia|]. specialize (IF eq_refl). lia.
Qed.
(* what the walk gives *)
Inductive reports (mem : bytes) : Z -> list member -> list bytes -> list (Z * Z * arhdr) -> Prop :=
| P_nil o : reports mem o [] [] []
| P_cons o m ms n ns h hs : shows_hdr m n h -> zsub mem (o + 60) (zlen (m_data m)) = m_data m -> reports mem (o + 60 + zlen (m_data m) + zlen (m_data m) mod 2) ms ns hs ->
    reports mem o (m :: ms) (n :: ns) ((o + 60, zlen (m_data m), h) :: hs).
Lemma walk_exact : forall r tab fuel ms body, arc_ok r -> members ms body -> (forall t, tab = Some t -> zlen t < two63) -> forall ns s m0 ms' n0 ns' k,
  ms = m0 :: ms' -> ns = n0 :: ns' -> Forall2 (fun m n => named tab (m_name m) n) ms ns -> at_ (r_mem r) (t_off s) body -> 0 <= t_off s -> t_off s + zlen body = ends r -> long_is fuel r tab (t_long s) -> shows_hdr m0 n0 (t_hdr s) -> (length ms <= k)%nat ->
  exists l s', ar_walk k fuel r s = Ok (l, s') /\ reports (r_mem r) (t_off s) ms ns l.
Proof.
  intros r tab fuel ms body OK MB TL. pose proof OK as (A0 & B0 & C0 & D0 & E0). induction MB as [|m h H|m h pad l b H PD MB IH]; intros ns s m0 ms' n0 ns' k EM EN FN A O END LI SH K; [discriminate| |]; injection EM as EM1 EM2; subst m0 ms' ns; rename m into m0; try rename l into ms'.
  all: destruct k as [|k]; [cbn in K; lia|]; cbn [ar_walk]; unfold ar_begin; pose proof SH as (HN & _ & _ & _ & _ & HS & _); rewrite HN; cbn [obind]; change (negb (0 =? 0)) with false; cbv zeta; cbn iota; rewrite HS; pose proof (zlen_nonneg _ (m_data m0)) as ZN; unfold ends in END; rewrite !zlen_app, (header_len _ _ H) in END; pose proof (Z.mod_pos_bound (zlen (m_data m0)) 2 ltac:(lia)) as MP.
  - rewrite u64_small by lia. unfold SZ_HDR. replace (zlen (m_data m0) =? two64 - 1) with false by lia. replace (r_mapped r && (8 <=? zlen (m_data m0)) && (zlen (r_mem r) <? t_off s + 60 + 8)) with false by (symmetry; destruct (r_mapped r); cbn [andb]; lia). cbn [obind].
    unfold ar_next. rewrite HS, even_up_eq by lia. unfold SZ_HDR. rewrite s64_small by lia. rewrite next_end; [|exact OK|unfold ends; cbn [t_off]; lia]. cbn [obind]. change (ELF_E_RANGE =? 0) with false. cbn iota. do 2 eexists. split; [reflexivity|]. inversion FN as [|? ? ? ? FN1 FN2]; subst. inversion FN2; subst. apply P_cons; [exact SH| |apply P_nil]. apply at_app2 in A. rewrite (header_len _ _ H) in A. apply at_zsub. exact A.
  - pose proof (zlen_nonneg _ b). rewrite PD in END. rewrite u64_small by lia. unfold SZ_HDR. replace (zlen (m_data m0) =? two64 - 1) with false by lia. replace (r_mapped r && (8 <=? zlen (m_data m0)) && (zlen (r_mem r) <? t_off s + 60 + 8)) with false by (symmetry; destruct (r_mapped r); cbn [andb]; lia). cbn [obind].
    apply at_app2 in A. rewrite (header_len _ _ H) in A. pose proof (at_app1 _ _ _ _ A) as AD. apply at_app2 in A. apply at_app2 in A. rewrite PD in A. inversion FN as [|? ? ? ? FN1 FN2]; subst.
    unfold ar_next. rewrite HS, even_up_eq by lia. unfold SZ_HDR. rewrite s64_small by lia. set (s1 := Ast _ _ _). replace (t_off s + 60 + zlen (m_data m0) + zlen (m_data m0) mod 2) with (t_off s1) in A by (subst s1; cbn [t_off]; lia).
    assert (T1 : t_off s1 = t_off s + 60 + zlen (m_data m0) + zlen (m_data m0) mod 2) by (subst s1; cbn [t_off]; lia). assert (LI1 : long_is fuel r tab (t_long s1)) by exact LI. destruct ms' as [|m1 ms1].
    + inversion MB; subst. inversion FN2; subst. change (zlen (@nil Z)) with 0 in END. rewrite next_end; [|exact OK|unfold ends; lia]. cbn [obind]. change (ELF_E_RANGE =? 0) with false. cbn iota. do 2 eexists. split; [reflexivity|]. apply P_cons; [exact SH|apply at_zsub; exact AD|apply P_nil].
    + inversion FN2 as [|? n1 ? ns1 FN3 FN4]; subst. assert (NX : exists s', next_arhdr fuel r s1 = Ok (0, s') /\ t_off s' = t_off s1 /\ long_is fuel r tab (t_long s') /\ shows_hdr m1 n1 (t_hdr s')).
      { inversion MB as [|? h1 H1 EE1 EE2|? h1 pad1 ? b1 H1 PD1 MB1 EE1 EE2]; subst; (apply (next_exact fuel r s1 tab m1 h1 n1 OK); [lia|exact (at_app1 _ _ _ _ A)|exact H1| |exact FN3|exact LI1|exact TL]); rewrite !zlen_app, (header_len _ _ H1) in END; unfold ends; try (pose proof (zlen_nonneg _ pad1); pose proof (zlen_nonneg _ b1)); lia. }
      destruct NX as (s2 & -> & T2 & LI2 & SH2). cbn [obind]. change (0 =? 0) with true. cbn iota. cbn [obind]. rewrite <- T2 in A.
      destruct (IH (n1 :: ns1) s2 m1 ms1 n1 ns1 k eq_refl eq_refl FN2 A) as (l & s' & -> & RP); [lia|unfold ends; lia|exact LI2|exact SH2|cbn [length] in *; lia|]. cbn [obind]. do 2 eexists. split; [reflexivity|]. apply P_cons; [exact SH|apply at_zsub; exact AD|]. rewrite <- T1, <- T2. exact RP.
Qed.
