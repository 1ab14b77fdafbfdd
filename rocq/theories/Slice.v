(* Bytes found at a position of a memory object: used to state and prove that a decoder
   inverts an encoder. *)
From Verif Require Import Base DwModel.

(* mem contains the bytes b at p *)
Definition at_ (mem : bytes) (p : Z) (b : bytes) : Prop := 0 <= p /\ p + zlen b <= zlen mem /\ zsub mem p (zlen b) = b.
(* n bytes holding v in the byte order of the file *)
Definition enc (fle : bool) (n : Z) (v : Z) : bytes := if fle then le_bytes (Z.to_nat n) v else be_bytes (Z.to_nat n) v.

Lemma at_intro : forall pre b post, at_ (pre ++ b ++ post) (zlen pre) b.
Proof.
  intros pre b post. pose proof (zlen_nonneg _ pre). pose proof (zlen_nonneg _ post). split; [lia|]. split; [rewrite !zlen_app; lia|].
  unfold zsub, zlen. rewrite !Nat2Z.id. rewrite skipn_app, skipn_all, Nat.sub_diag. cbn [skipn app]. rewrite firstn_app, firstn_all, Nat.sub_diag.
  cbn [firstn]. apply app_nil_r.
Qed.
Lemma at_all : forall b, at_ b 0 b.
Proof. intros b. pose proof (at_intro [] b []) as H. cbn [app] in H. rewrite app_nil_r in H. exact H. Qed.
Lemma at_split : forall mem p a b, at_ mem p (a ++ b) -> exists pre post, mem = pre ++ a ++ b ++ post /\ zlen pre = p.
Proof.
  intros mem p a b (P & L & E). exists (firstn (Z.to_nat p) mem), (skipn (Z.to_nat (zlen (a ++ b))) (skipn (Z.to_nat p) mem)).
  split.
  - rewrite <- (firstn_skipn (Z.to_nat p) mem) at 1. f_equal.
    rewrite <- (firstn_skipn (Z.to_nat (zlen (a ++ b))) (skipn (Z.to_nat p) mem)) at 1. 
    unfold zsub in E. rewrite E. rewrite <- app_assoc. reflexivity.
  - unfold zlen in *. rewrite firstn_length. rewrite app_length in L. lia.
Qed.
Lemma at_app1 : forall mem p a b, at_ mem p (a ++ b) -> at_ mem p a.
Proof. intros mem p a b H. apply at_split in H as (pre & post & -> & <-). apply at_intro. Qed.
Lemma at_app2 : forall mem p a b, at_ mem p (a ++ b) -> at_ mem (p + zlen a) b.
Proof.
  intros mem p a b H. apply at_split in H as (pre & post & -> & <-). rewrite <- zlen_app.
  replace (pre ++ a ++ b ++ post) with ((pre ++ a) ++ b ++ post) by (rewrite <- !app_assoc; reflexivity). apply at_intro.
Qed.
Lemma at_bound : forall mem p b, at_ mem p b -> 0 <= p /\ p + zlen b <= zlen mem.
Proof. intros mem p b (A & B & _). split; assumption. Qed.
Lemma zlen_enc : forall fle n v, 0 <= n -> zlen (enc fle n v) = n.
Proof. intros fle n v H. unfold enc, zlen. destruct fle; rewrite ?le_bytes_length, ?be_bytes_length; lia. Qed.
Lemma fval_enc : forall fle n v, 0 <= n -> 0 <= v < 256 ^ n -> fval fle (enc fle n v) = v.
Proof.
  intros fle n v N V. unfold enc. apply fval_bytes. rewrite Z2Nat.id by lia. exact V.
Qed.
Lemma rd_at : forall fle mem p n v, 0 <= n -> 0 <= v < 256 ^ n -> at_ mem p (enc fle n v) -> rd fle mem p n = Ok v.
Proof.
  intros fle mem p n v N V (P & L & E). rewrite zlen_enc in L, E by exact N. rewrite rd_in by lia. rewrite E. f_equal. apply fval_enc; assumption.
Qed.
Lemma rd_at1 : forall fle mem p v rest, 0 <= v < 256 -> at_ mem p (v :: rest) -> rd fle mem p 1 = Ok v.
Proof.
  intros fle mem p v rest V H. change (v :: rest) with ([v] ++ rest) in H. apply at_app1 in H. destruct H as (P & L & E).
  rewrite rd_in by (cbn in L; lia). change (zlen [v]) with 1 in E. rewrite E. destruct fle; unfold fval, be_value; cbn; f_equal; lia.
Qed.
Lemma enc_ok : forall fle n v, bytes_ok (enc fle n v).
Proof. intros fle n v. unfold enc. destruct fle; [apply le_bytes_ok|apply be_bytes_ok]. Qed.
