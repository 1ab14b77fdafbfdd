(* C99: the sizes that size prints. *)
From Verif Require Import Base SzModel.

(* The specification: the loaded sections of a file by their kind, and the sum of their sizes *)
Definition kind (w b : bool -> bool) (s : zsec) : bool := z_alloc s && w (z_write s) && b (z_nobits s).
Definition any (b : bool) : bool := true.
Definition yes (b : bool) : bool := b.
Definition sum (k : zsec -> bool) (l : list zsec) : Z := fold_right Z.add 0 (map z_size (filter k l)).
Definition text := kind negb any. Definition data := kind yes negb. Definition bss := kind yes yes.
Definition sized (l : list zsec) : Prop := Forall (fun s => 0 <= z_size s) l /\ sum z_alloc l < 2 ^ 63.

Lemma sum_cons k s l : sum k (s :: l) = (if k s then z_size s else 0) + sum k l.
Proof. unfold sum. cbn [filter]. destruct (k s); reflexivity. Qed.
Lemma sum_nonneg k l : Forall (fun s => 0 <= z_size s) l -> 0 <= sum k l.
Proof. induction 1 as [|s l H F IH]; [reflexivity|]. rewrite sum_cons. destruct (k s); lia. Qed.
Lemma sum_split l : sum z_alloc l = sum text l + sum data l + sum bss l.
Proof. induction l as [|s l IH]; [reflexivity|]. rewrite !sum_cons, IH. unfold text, data, bss, kind, any, yes. destruct (z_alloc s), (z_write s), (z_nobits s); cbn; lia. Qed.
Lemma bsd_ok : forall l c, Forall (fun s => 0 <= z_size s) l -> 0 <= c_text c -> 0 <= c_data c -> 0 <= c_bss c -> c_text c + c_data c + c_bss c + sum z_alloc l < 2 ^ 64 ->
  bsd_loop (map Some l) c = Ok (Cols (c_text c + sum text l) (c_data c + sum data l) (c_bss c + sum bss l)).
Proof.
  induction l as [|s l IH]; intros c F A B C T; cbn [map bsd_loop]; [unfold sum; cbn; rewrite !Z.add_0_r; destruct c; reflexivity|].
  apply Forall_cons_iff in F. destruct F as (F1 & F2). rewrite !sum_cons in *. pose proof (sum_nonneg z_alloc l F2).
  unfold text, data, bss, kind, any, yes. fold text data bss.
  change (fun s0 => z_alloc s0 && negb (z_write s0) && true) with text. 
  destruct (z_alloc s) eqn:QA; cbn [negb andb]; [|rewrite IH by (auto; lia); reflexivity].
  destruct (z_write s) eqn:QW; cbn [negb andb]; [destruct (z_nobits s) eqn:QN; cbn [negb andb]|].
  all: rewrite IH; cbn [c_text c_data c_bss]; auto; unfold u64; rewrite ?Z.mod_small by lia; try lia.
  all: f_equal; f_equal; unfold text, data, bss, kind, any, yes; lia.
Qed.
Lemma sysv_ok : forall l t, Forall (fun s => 0 <= z_size s) l -> 0 <= t -> t + sum z_alloc l < 2 ^ 64 ->
  sysv_loop (map Some l) t = (map (fun s => (z_size s, z_addr s)) (filter z_alloc l), t + sum z_alloc l) /\ one_line (map Some l) t = Ok (map z_size (filter z_alloc l), t + sum z_alloc l).
Proof.
  induction l as [|s l IH]; intros t F A T; cbn [map sysv_loop one_line filter]; [unfold sum; cbn; rewrite Z.add_0_r; auto|].
  apply Forall_cons_iff in F. destruct F as (F1 & F2). rewrite !sum_cons in *. pose proof (sum_nonneg z_alloc l F2). destruct (z_alloc s); cbn [negb].
  - destruct (IH (u64 (t + z_size s)) F2) as (I1 & I2); [unfold u64; rewrite Z.mod_small; lia | unfold u64; rewrite Z.mod_small; lia|]. rewrite I1, I2. cbn [obind fst snd map]. unfold u64. rewrite Z.mod_small by lia. split; [f_equal; lia | do 2 f_equal; lia].
  - destruct (IH t F2 A ltac:(lia)) as (I1 & I2). rewrite I1, I2. split; [f_equal; lia | do 2 f_equal; lia].
Qed.

(* One file whose loaded sections have less than 2^63 bytes together: the columns are the sums of the sizes of the loaded sections that are not writable, that are writable with contents and
   that are writable without; the total is that of all loaded sections, the same that the two other formats give, which list each loaded section once, in order. *)
Theorem C99_file_partial : forall l, sized l ->
  bsd_files [map Some l] (Cols 0 0 0) = Ok ([Zline (sum text l) (sum data l) (sum bss l) (sum z_alloc l) (sum z_alloc l)], Cols (sum text l) (sum data l) (sum bss l)) /\
  show_sysv (map Some l) = Ok (map (fun s => (z_size s, z_addr s)) (filter z_alloc l), sum z_alloc l) /\
  one_line (map Some l) 0 = Ok (map z_size (filter z_alloc l), sum z_alloc l).
Proof.
  intros l (F & T). pose proof (sum_split l) as S. pose proof (sum_nonneg text l F). pose proof (sum_nonneg data l F). pose proof (sum_nonneg bss l F). split; [|split].
  - cbn [bsd_files]. rewrite bsd_ok by (cbn [c_text c_data c_bss]; auto; lia). cbn [c_text c_data c_bss obind fst snd Z.add]. unfold show. cbn [c_text c_data c_bss].
    assert (E : forall v, 0 <= v < 2 ^ 63 -> s64 v = v /\ u64 v = v) by (intros v V; split; [unfold s64; rewrite Z.mod_small by lia; lia | apply Z.mod_small; lia]).
    rewrite <- S. repeat match goal with |- context [s64 ?v] => rewrite (proj1 (E v ltac:(lia))) end. repeat match goal with |- context [u64 ?v] => rewrite (proj2 (E v ltac:(lia))) end. reflexivity.
  - unfold show_sysv. replace (existsb _ (map Some l)) with false; [rewrite (proj1 (sysv_ok l 0 F ltac:(lia) ltac:(lia))); reflexivity|]. clear. induction l; [reflexivity | exact IHl].
  - rewrite (proj2 (sysv_ok l 0 F ltac:(lia) ltac:(lia))). reflexivity.
Qed.
Print Assumptions C99_file_partial.

(* Several files: the line of each file does not depend on the others, and the totals are the sums over all of them. *)
Theorem C99_totals_partial : forall files tot, Forall sized files -> 0 <= c_text tot -> 0 <= c_data tot -> 0 <= c_bss tot ->
  let all k := fold_right Z.add 0 (map (sum k) files) in
  c_text tot + c_data tot + c_bss tot + all z_alloc < 2 ^ 64 ->
  exists c, bsd_files (map (map Some) files) tot = Ok (map (fun l => Zline (sum text l) (sum data l) (sum bss l) (sum z_alloc l) (sum z_alloc l)) files, c) /\
    show_totals c = Zline (c_text tot + all text) (c_data tot + all data) (c_bss tot + all bss) (c_text tot + c_data tot + c_bss tot + all z_alloc) (c_text tot + c_data tot + c_bss tot + all z_alloc).
Proof.
  induction files as [|l r IH]; intros tot S A B C all T.
  - exists tot. split; [reflexivity|]. unfold show_totals, all. cbn [map fold_right] in *. rewrite !Z.add_0_r. unfold u64. rewrite Z.mod_small by (unfold all in T; cbn in T; lia). reflexivity.
  - apply Forall_cons_iff in S. destruct S as (Sl & Sr). pose proof (proj1 (C99_file_partial l Sl)) as P. destruct Sl as (F & Tl). pose proof (sum_split l) as SS.
    pose proof (sum_nonneg text l F). pose proof (sum_nonneg data l F). pose proof (sum_nonneg bss l F).
    assert (R0 : 0 <= fold_right Z.add 0 (map (sum z_alloc) r)). { clear - Sr. induction Sr as [|x k (X & _) K IH]; cbn; [lia|]. pose proof (sum_nonneg z_alloc x X). lia. }
    unfold all in *. cbn [map fold_right] in *.
    cbn [bsd_files] in P |- *. rewrite bsd_ok in * by (cbn [c_text c_data c_bss]; auto; lia). cbn [c_text c_data c_bss obind fst snd Z.add] in *. injection P as P1 P2 P3 P4 P5 P6 P7 P8.
    set (t' := Cols (u64 (c_text tot + sum text l)) (u64 (c_data tot + sum data l)) (u64 (c_bss tot + sum bss l))).
    assert (E : t' = Cols (c_text tot + sum text l) (c_data tot + sum data l) (c_bss tot + sum bss l)) by (unfold t', u64; rewrite !Z.mod_small by lia; reflexivity).
    rewrite E. destruct (IH (Cols (c_text tot + sum text l) (c_data tot + sum data l) (c_bss tot + sum bss l)) Sr) as (c & I1 & I2); cbn [c_text c_data c_bss]; try lia.
    rewrite I1. cbn [obind fst snd]. exists c. split.
    + do 3 f_equal. unfold show. cbn [c_text c_data c_bss]. congruence.
    + rewrite I2. cbn [c_text c_data c_bss]. f_equal; lia.
Qed.
Print Assumptions C99_totals_partial.

Definition secs : list zsec := [Zsec true false false 100 0; Zsec false false false 7 0; Zsec true true false 30 200; Zsec true true true 8 300; Zsec true false false 5 400].
Example C99_nonvacuous : Forall sized [secs; secs] /\ bsd_files [map Some secs; map Some secs] (Cols 0 0 0) = Ok ([Zline 105 30 8 143 143; Zline 105 30 8 143 143], Cols 210 60 16) /\ show_totals (Cols 210 60 16) = Zline 210 60 16 286 286.
Proof. split; [repeat first [apply Forall_nil | apply Forall_cons]; (split; [repeat first [apply Forall_nil | apply Forall_cons]; cbn; lia | reflexivity])|]. split; vm_compute; reflexivity. Qed.

(* A section of 2^63 bytes or more is shown as a negative number, and sizes whose sum is 2^64 or more have a total that is too small. *)
Theorem C99_large_refuted : bsd_files [[Some (Zsec true false false (2 ^ 63) 0)]] (Cols 0 0 0) = Ok ([Zline (- 2 ^ 63) 0 0 (- 2 ^ 63) (2 ^ 63)], Cols (2 ^ 63) 0 0) /\
  show_sysv [Some (Zsec true false false (2 ^ 63) 0); Some (Zsec true true true (2 ^ 63) 0)] = Ok ([(2 ^ 63, 0); (2 ^ 63, 0)], 0).
Proof. split; vm_compute; reflexivity. Qed.
Print Assumptions C99_large_refuted.
(* A section without a header: the program ends with a message, but in the one-line format a null pointer is followed. *)
Theorem C99_header_refuted : forall a b c, (forall x, bsd_loop (map Some a ++ None :: b) c <> Ok x) /\ show_sysv (map Some a ++ None :: b) = Err 1 /\ (forall t, one_line (map Some a ++ None :: b) t = UB).
Proof.
  intros a b c. split; [|split].
  - revert c. induction a as [|s a IH]; intros c x; cbn [map app bsd_loop]; [discriminate|]. destruct (negb (z_alloc s)); [apply IH|]. destruct (negb (z_write s)); [apply IH|]. destruct (z_nobits s); apply IH.
  - unfold show_sysv. rewrite existsb_app. cbn [existsb]. rewrite orb_true_r. reflexivity.
  - induction a as [|s a IH]; intros t; cbn [map app one_line]; [reflexivity|]. destruct (negb (z_alloc s)); [apply IH|]. rewrite IH. reflexivity.
Qed.
Print Assumptions C99_header_refuted.
