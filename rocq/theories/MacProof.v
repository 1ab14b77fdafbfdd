(* Proofs about MacModel: well-formed units. *)
From Verif Require Import Base LebModel LebSpec DwModel Slice CfiSpec CfiProof FormModel FormSpec FormProps LineModel PubModel MacModel MacSpec.
From Coq Require Import ZifyBool ZifyNat.

Lemma user_form : forall f, In f operand_forms <-> valid_user_form f = true.
Proof. intro f. unfold operand_forms, valid_user_form. rewrite existsb_exists. split; [intro I; exists f; split; [exact I|lia]|intros (x & I & E); apply Z.eqb_eq in E; subst; exact I]. Qed.
Lemma val_len_asize : forall mem s e o v fle f p, In f operand_forms -> val_len (Cu mem s e 0 o v fle) f p = val_len (Cu mem s e 8 o v fle) f p.
Proof.
  intros mem s e o v fle f p I. unfold val_len. cbn [u_mem form_val_len]. unfold operand_forms in I. cbn [In] in I.
  repeat (destruct I as [<-|I]; [reflexivity|]). destruct I.
Qed.
Lemma size_val : forall mem s e o v fle f x b p, o = 4 \/ o = 8 -> e < two32 -> In f operand_forms -> holds (Params fle 8 o v) f x b -> at_ mem p b -> p + zlen b <= e ->
  val_len (Cu mem s e 0 o v fle) f p = Ok (zlen b).
Proof.
  intros mem s e o v fle f x b p O E I H A B. rewrite val_len_asize by exact I. pose proof (at_bound _ _ _ A) as (P & _). apply (C34_size_partial (Cu mem s e 8 o v fle) f x b p); cbn [u_mem u_endp]; try assumption; try lia.
  split; [right; reflexivity|exact O].
Qed.

Section unit.
Variables (fle : bool) (mem : bytes) (e : Z).
Hypothesis E32 : e < two32.
Let s := Sec mem e.

Definition attr_at (ver : Z) (x : Z * Z) : attr := Attr (if ver =? 4 then 8473 else 121) (fst x) (snd x) [].
Lemma operands_ok : forall st o v l p, o = 4 \/ o = 8 -> Forall (fun x => In (fst (fst x)) operand_forms /\ holds (Params fle 8 o v) (fst (fst x)) (snd (fst x)) (snd x)) l ->
  at_ mem p (operand_bytes l) -> p + zlen (operand_bytes l) <= e ->
  operands (Cu mem st e 0 o v fle) (map (fun x => fst (fst x)) l) p = Ok (map (attr_at v) (places p l), p + zlen (operand_bytes l)).
Proof using E32.
  intros st o v l p O F. revert p. induction F as [|[[f x] b] l (I & H) F IH]; intros p A B; cbn [map operands places].
  - change (zlen (operand_bytes [])) with 0. rewrite Z.add_0_r. reflexivity.
  - cbn [fst snd] in *. change (operand_bytes ((f, x, b) :: l)) with (b ++ operand_bytes l) in *. rewrite zlen_app in *. pose proof (zlen_nonneg _ (operand_bytes l)).
    pose proof (proj1 (user_form f) I) as VF. rewrite VF. cbn [negb]. rewrite (size_val _ _ _ _ _ _ _ _ _ _ O E32 I H (at_app1 _ _ _ _ A)) by lia. cbn [obind].
    rewrite IH by (try exact (at_app2 _ _ _ _ A); lia). cbn [obind]. rewrite Z.add_assoc. reflexivity.
Qed.

Context {A : Type} (cb : A -> macro -> A * Z).
Definition call (ver line : Z) (a : A) (op : Z) (l : list (Z * Z)) : A * Z := cb a (Macro op (map (attr_at ver) l) line).
Definition result (start : Z) (v : A * option Z) : A * ret := (fst v, match snd v with None => Done | Some q => Stopped (q - start) end).

Lemma entry_len : forall x, 1 <= zlen (entry_bytes x). Proof using. intro x. unfold entry_bytes. rewrite zlen_cons. pose proof (zlen_nonneg _ (operand_bytes (e_operands x))). lia. Qed.
Lemma entries_ok : forall t st start accept l k p a,
  Forall (entry_ok (Params fle 8 (if t_64 t then 8 else 4) (t_version t)) (forms_of (t_ops t))) l -> Forall (fun x => accept = true \/ e_op x <> 255) l ->
  at_ mem p (entries_bytes l ++ [0]) -> p + zlen (entries_bytes l) < e -> (length (entries_bytes l) < k)%nat ->
  ops_loop fle cb k s t start accept (fake_cu fle s t st) p a = Ok (result start (visit (call (t_version t) (t_line t)) p a l)).
Proof using E32.
  intros t st start accept. induction l as [|x l IH]; intros k p a F AC AT B K; (destruct k as [|k]; [lia|]); cbn [ops_loop]; cbn [s s_size s_mem].
  - change (entries_bytes []) with (@nil Z) in *. cbn [app] in AT. change (zlen []) with 0 in B. replace (e <=? p) with false by lia. rewrite (rd_at1 fle mem p 0 []) by (try exact AT; lia). reflexivity.
  - apply Forall_cons_iff in F as ((OP & FO & OO) & F). apply Forall_cons_iff in AC as (ACx & AC).
    change (entries_bytes (x :: l)) with (entry_bytes x ++ entries_bytes l) in *. rewrite <- app_assoc in AT. rewrite zlen_app in B. rewrite app_length in K. pose proof (entry_len x). pose proof (zlen_nonneg _ (entries_bytes l)).
    replace (e <=? p) with false by lia. pose proof AT as AT'. unfold entry_bytes in AT'. cbn [app] in AT'. rewrite (rd_at1 fle mem p (e_op x) _ ltac:(lia) AT'). cbn [obind].
    replace (e_op x =? 0) with false by lia. replace ((e_op x =? 255) && negb accept) with false by (destruct ACx as [->|NE]; [rewrite andb_false_r; reflexivity|replace (e_op x =? 255) with false by lia; reflexivity]).
    rewrite FO. assert (ZE : zlen (entry_bytes x) = 1 + zlen (operand_bytes (e_operands x))) by (unfold entry_bytes; apply zlen_cons).
    unfold fake_cu. cbn [s s_mem s_size]. assert (OS : (if t_64 t then 8 else 4) = 4 \/ (if t_64 t then 8 else 4) = 8) by (destruct (t_64 t); auto). rewrite (operands_ok st _ _ _ (p + 1) OS OO).
    + cbn [visit]. fold (call (t_version t) (t_line t) a (e_op x) (places (p + 1) (e_operands x))). replace (p + 1 + zlen (operand_bytes (e_operands x))) with (p + zlen (entry_bytes x)) by lia.
      destruct (call (t_version t) (t_line t) a (e_op x) (places (p + 1) (e_operands x))) as [a1 code]. destruct (code =? 0) eqn:C; cbn [negb]; [|reflexivity].
      apply (IH k); [exact F|exact AC|exact (at_app2 _ _ _ _ AT)|lia|unfold zlen in *; lia].
    + apply at_shift in AT'. exact (at_app1 _ _ _ _ AT').
    + lia.
Qed.

(* the header *)
Definition pair_of (d : def) : Z * list Z := (d_op d, d_forms d).
Lemma defs_ok : forall l p ops, Forall def_ok l -> at_ mem p (concat (map def_bytes l)) -> p + zlen (concat (map def_bytes l)) <= e ->
  read_defs fle s (length l) p ops = Ok (rev (map pair_of l) ++ ops, p + zlen (concat (map def_bytes l))).
Proof using E32.
  induction l as [|d l IH]; intros p ops F AT B; cbn [length read_defs map rev app concat].
  - change (zlen []) with 0. rewrite Z.add_0_r. reflexivity.
  - apply Forall_cons_iff in F as ((OP & U) & F). cbn [map concat] in AT, B. unfold def_bytes in AT at 1. unfold def_bytes in B at 1. cbn [app] in AT, B. cbn [s s_mem s_size].
    rewrite (rd_at1 fle mem p (d_op d) _ ltac:(lia) AT). cbn [obind]. apply at_shift in AT. rewrite <- !app_assoc in AT. rewrite zlen_cons, !zlen_app in B. pose proof (uleb_len _ _ U). pose proof (uleb_of_nonneg _ _ U). pose proof (zlen_nonneg _ (d_forms d)). pose proof (zlen_nonneg _ (concat (map def_bytes l))).
    pose proof (at_bound _ _ _ AT) as (P0 & _).
    replace (e <=? p + 1) with false by lia. rewrite (uleb_at _ _ e _ _ U (at_app1 _ _ _ _ AT)) by lia. cbn [obind]. replace (d_op d =? 0) with false by lia. replace (two63 <=? zlen (d_forms d)) with false by lia. replace (e <? p + 1 + zlen (d_count d) + zlen (d_forms d)) with false by lia.
    apply at_app2 in AT. rewrite (IH _ _ F (at_app2 _ _ _ _ AT)) by lia. f_equal. f_equal.
    + destruct (at_app1 _ _ _ _ AT) as (_ & _ & ->). rewrite <- app_assoc. reflexivity.
    + unfold def_bytes at 2. cbn [app]. rewrite zlen_cons, !zlen_app. lia.
Qed.
Lemma forms_app : forall a b op, forms_of (a ++ b) op = match forms_of a op with Some f => Some f | None => forms_of b op end.
Proof using. intros a b op. unfold forms_of. induction a as [|[o f] a IH]; cbn [app find]; [reflexivity|]. destruct (fst (o, f) =? op); [reflexivity|exact IH]. Qed.
Lemma forms_none : forall l op, existsb (fun x => d_op x =? op) l = false -> forms_of (rev (map pair_of l)) op = None.
Proof using.
  induction l as [|d l IH]; intros op H; [reflexivity|]. cbn [existsb] in H. apply orb_false_iff in H as (H1 & H2). cbn [map rev]. rewrite forms_app, (IH _ H2). unfold forms_of. cbn. rewrite H1. reflexivity.
Qed.
Lemma forms_some : forall l op, existsb (fun x => d_op x =? op) l = true -> exists f, forms_of (rev (map pair_of l)) op = Some f.
Proof using.
  induction l as [|d l IH]; intros op H; [discriminate|]. cbn [map rev]. rewrite forms_app. destruct (existsb (fun x => d_op x =? op) l) eqn:X; [destruct (IH _ X) as (f & ->); eauto|]. rewrite (forms_none _ _ X). cbn [existsb] in H. rewrite X, orb_false_r in H. unfold forms_of. cbn. rewrite H. eauto.
Qed.
Lemma standard_ok : forall op, forms_of macro_ops op = standard op.
Proof using.
  intro op. unfold forms_of, macro_ops. cbn [find fst snd]. destruct op as [|q|q]; try reflexivity. 
  destruct q as [q|q|]; try destruct q as [q|q|]; try destruct q as [q|q|]; try destruct q as [q|q|]; reflexivity.
Qed.
Lemma defined_ok : forall l op, forms_of (rev (map pair_of l) ++ macro_ops) op = defined l op.
Proof using.
  induction l as [|d l IH]; intro op; [apply standard_ok|]. cbn [map rev defined]. rewrite <- app_assoc, forms_app. specialize (IH op). rewrite forms_app in IH. destruct (existsb (fun x => d_op x =? op) l) eqn:X.
  - destruct (forms_some _ _ X) as (f & Q). rewrite Q in *. exact IH.
  - rewrite (forms_none _ _ X) in *. cbn [app]. unfold forms_of. cbn [find pair_of fst snd]. destruct (d_op d =? op); [reflexivity|exact IH].
Qed.
Lemma filter_le : forall (f : nat -> bool) l, (length (filter f l) <= length l)%nat.
Proof using. intros f l. induction l as [|y l IH]; cbn [filter length]; [lia|]. destruct (f y); cbn [length]; lia. Qed.
Lemma filter_less : forall (f : nat -> bool) l x, In x l -> f x = false -> (length (filter f l) < length l)%nat.
Proof using.
  intros f l x I F. induction l as [|y l IH]; [destruct I|]. cbn [filter length]. pose proof (filter_le f l). destruct I as [->|I]; [rewrite F; lia|]. specialize (IH I). destruct (f y); cbn [length]; lia.
Qed.
Lemma count_less : forall ops op, 1 <= op <= 255 -> forms_of ops op = None -> (count_ops ops < 255)%nat.
Proof using.
  intros ops op R N. unfold count_ops. rewrite <- (seq_length 255 1) at 2. apply (filter_less _ _ (Z.to_nat op)); [apply in_seq; lia|]. rewrite Z2Nat.id by lia. rewrite N. reflexivity.
Qed.

Definition ops_of (m : munit) : list (Z * list Z) := match mu_defs m with None => macro_ops | Some l => rev (map pair_of l) ++ macro_ops end.
Lemma ops_of_ok : forall m op, forms_of (ops_of m) op = operands_of m op.
Proof using. intros m op. unfold ops_of, operands_of. destruct (mu_defs m); [apply defined_ok|apply standard_ok]. Qed.
Lemma header_ok : forall m macoff cu rest, unit_ok fle m -> at_ mem macoff (header_bytes fle m ++ rest) -> macoff + zlen (header_bytes fle m) <= e ->
  get_table fle s macoff cu = (line <- (match mu_line m with Some v => Ok v | None => cu_line cu end) ;; Ok (Table (ops_of m) line (zlen (header_bytes fle m)) (mu_version m) (mu_wide m))).
Proof using E32.
  intros m macoff cu rest (V & L & D & _) AT B. unfold get_table. cbn [s s_mem s_size]. unfold header_bytes in AT, B |- *. set (flags := (if mu_wide m then 1 else 0) + _ + _) in *.
  rewrite <- !app_assoc in AT. pose proof (at_bound _ _ _ AT) as (P0 & _). rewrite !zlen_app in B |- *. rewrite zlen_enc in B |- * by lia. change (zlen [flags]) with 1 in B |- *.
  set (lb := line_bytes fle m) in *. set (db := defs_bytes m) in *.
  pose proof (zlen_nonneg _ lb). pose proof (zlen_nonneg _ db).
  replace (e <? macoff + 3) with false by lia. rewrite (rd_at fle mem macoff 2 (mu_version m)) by (try exact (at_app1 _ _ _ _ AT); try lia; change (256 ^ 2) with 65536; lia). cbn [obind].
  replace (negb (mu_version m =? 4) && negb (mu_version m =? 5)) with false by (destruct V as [-> | ->]; reflexivity).
  apply at_app2 in AT. rewrite zlen_enc in AT by lia. assert (FB : 0 <= flags < 256) by (unfold flags; destruct (mu_wide m), (mu_line m), (mu_defs m); lia). rewrite (rd_at1 fle mem (macoff + 2) flags _ FB AT). cbn [obind].
  assert (T0 : Z.testbit flags 0 = mu_wide m) by (unfold flags; destruct (mu_wide m), (mu_line m), (mu_defs m); reflexivity).
  assert (T1 : Z.testbit flags 1 = match mu_line m with Some _ => true | None => false end) by (unfold flags; destruct (mu_wide m), (mu_line m), (mu_defs m); reflexivity).
  assert (T2 : Z.testbit flags 2 = match mu_defs m with Some _ => true | None => false end) by (unfold flags; destruct (mu_wide m), (mu_line m), (mu_defs m); reflexivity).
  rewrite T0, T1, T2. apply at_app2 in AT. change (zlen [flags]) with 1 in AT. replace (macoff + 2 + 1) with (macoff + 3) in AT by lia. clearbody flags. clear T0 T1 T2 FB.
  assert (OS : off_size (mu_wide m) = 4 \/ off_size (mu_wide m) = 8) by (unfold off_size; destruct (mu_wide m); auto).
  assert (LN : (if match mu_line m with Some _ => true | None => false end then v <- rd fle mem (macoff + 3) (if mu_wide m then 8 else 4) ;; (if e <? macoff + 3 + (if mu_wide m then 8 else 4) then Err DWARF_E_INVALID_DWARF else Ok (v, macoff + 3 + (if mu_wide m then 8 else 4))) else v <- cu_line cu ;; Ok (v, macoff + 3))
    = (v <- match mu_line m with Some v => Ok v | None => cu_line cu end ;; Ok (v, macoff + 3 + zlen lb))).
  { unfold lb, line_bytes in *. clear lb. destruct (mu_line m) as [v|].
    - fold (off_size (mu_wide m)). rewrite zlen_enc in * by lia. rewrite (rd_at fle mem (macoff + 3) (off_size (mu_wide m)) v) by (try exact (at_app1 _ _ _ _ AT); try exact L; lia). cbn [obind]. replace (e <? macoff + 3 + off_size (mu_wide m)) with false by lia. reflexivity.
    - change (zlen []) with 0. rewrite Z.add_0_r. reflexivity. }
  rewrite LN. destruct (match mu_line m with Some v => Ok v | None => cu_line cu end) as [line|er| |]; cbn [obind]; try reflexivity.
  apply at_app2 in AT.
  assert (DF : (if match mu_defs m with Some _ => true | None => false end then count <- rd fle mem (macoff + 3 + zlen lb) 1 ;; read_defs fle s (Z.to_nat count) (macoff + 3 + zlen lb + 1) macro_ops else Ok (macro_ops, macoff + 3 + zlen lb)) = Ok (ops_of m, macoff + 3 + zlen lb + zlen db)).
  { unfold ops_of. unfold db, defs_bytes in *. clear db. destruct (mu_defs m) as [l|]; [|change (zlen []) with 0; rewrite Z.add_0_r; reflexivity]. destruct D as (D1 & D2 & _). cbn [app] in AT. rewrite zlen_cons in *. pose proof (zlen_nonneg _ l).
    rewrite (rd_at1 fle mem _ (zlen l) _ ltac:(lia) AT). cbn [obind]. apply at_shift in AT. replace (Z.to_nat (zlen l)) with (length l) by (unfold zlen; lia). rewrite (defs_ok _ _ _ D1 (at_app1 _ _ _ _ AT)) by lia. do 2 f_equal. lia. }
  unfold s in DF. fold s in DF. rewrite DF. cbn [obind].
  assert (CT : (count_ops (ops_of m) < 255)%nat).
  { unfold ops_of. destruct (mu_defs m) as [l|]; [destruct D as (_ & _ & op & R & N); apply (count_less _ op R); rewrite defined_ok; exact N|apply (count_less _ 13); [lia|reflexivity]]. }
  replace (Nat.leb 255 (count_ops (ops_of m))) with false by (symmetry; apply Nat.leb_gt; exact CT). do 2 f_equal. lia.
Qed.
End unit.
