(* C30: descriptors are freed exactly when nothing refers to them any more. *)
From Verif Require Import Base RefModel.

(* ------------------------------------------------------------------ *)
(* Specification.  What the program holds: for each descriptor ever returned the
   number of handles not yet given back, the archive it was opened from, and whether it
   is an archive itself. *)
Record held := Held { handles : nat -> Z; from : nat -> option nat; is_ar : nat -> bool; created : nat }.
Definition setf {A} (f : nat -> A) (d : nat) (v : A) : nat -> A := fun y => if Nat.eqb y d then v else f y.
Definition new_desc (t : held) (p : option nat) (ar : bool) : held :=
  Held (setf (handles t) (created t) 1) (setf (from t) (created t) p) (setf (is_ar t) (created t) ar) (S (created t)).
Definition add_handles (t : held) (d : nat) (k : Z) : held :=
  Held (setf (handles t) d (handles t d + k)) (from t) (is_ar t) (created t).

Inductive call :=
| Open (ok : option bool)             (* elf_begin (fd, cmd, NULL) *)
| Dup (d : nat) (ok : option bool)    (* elf_begin (fd, cmd, d) *)
| Clone (d : nat) (ok : bool)         (* elf_clone (d, ELF_C_EMPTY) *)
| End (d : nat).                      (* elf_end (d) *)
(* The result: a descriptor (or NULL), or the number returned by elf_end. *)
Inductive res := RDesc (d : option nat) | RNum (z : Z).

(* None: the program breaks the rules (uses a descriptor it holds no handle of, more
   than 2^31 - 1 handles of one), or clones an archive or a member of one. *)
Definition spec_call (t : held) (c : call) : option (held * res) :=
  match c with
  | Open None => Some (t, RDesc None)
  | Open (Some ar) => Some (new_desc t None ar, RDesc (Some (created t)))
  | Dup d ok =>
    if handles t d <=? 0 then None else
    match ok with
    | None => Some (t, RDesc None)
    | Some ar => if is_ar t d then Some (new_desc t (Some d) ar, RDesc (Some (created t)))
                 else if handles t d <? two31 - 1 then Some (add_handles t d 1, RDesc (Some d)) else None
    end
  | Clone d ok =>
    if (handles t d <=? 0) || is_ar t d || (match from t d with None => false | _ => true end) then None
    else if ok then Some (new_desc t None false, RDesc (Some (created t))) else Some (t, RDesc None)
  | End d => if handles t d <=? 0 then None else Some (add_handles t d (-1), RNum (handles t d - 1))
  end.
Fixpoint spec_calls (t : held) (cs : list call) : option (held * list res) :=
  match cs with
  | [] => Some (t, [])
  | c :: cs => match spec_call t c with
               | None => None
               | Some (t, r) => match spec_calls t cs with None => None | Some (t, rs) => Some (t, r :: rs) end
               end
  end.
Definition held0 : held := Held (fun _ => 0) (fun _ => None) (fun _ => false) 0.

(* A descriptor is needed while the program holds a handle of it or a descriptor
   opened from it is needed. *)
Inductive needed (t : held) : nat -> Prop :=
| needed_handle d : 0 < handles t d -> needed t d
| needed_member c d : from t c = Some d -> needed t c -> needed t d.

(* Running the calls. *)
Definition do_call (s : st) (c : call) : outcome (st * res) :=
  match c with
  | Open ok => ' (s, r) <- elf_begin s None ok ;; Ok (s, RDesc r)
  | Dup d ok => ' (s, r) <- elf_begin s (Some d) ok ;; Ok (s, RDesc r)
  | Clone d ok => ' (s, r) <- elf_clone s d ok ;; Ok (s, RDesc r)
  | End d => ' (s, z) <- elf_end (S (nxt s)) s d ;; Ok (s, RNum z)
  end.
Fixpoint do_calls (s : st) (cs : list call) : outcome (st * list res) :=
  match cs with
  | [] => Ok (s, [])
  | c :: cs => ' (s, r) <- do_call s c ;; ' (s, rs) <- do_calls s cs ;; Ok (s, r :: rs)
  end.

(* ------------------------------------------------------------------ *)
Definition live (s : st) (d : nat) : Prop := hp s d <> None.

(* The invariant; [ex] is a descriptor that may be without use (about to be freed). *)
Record inv (ex : option nat) (s : st) (t : held) : Prop := Inv {
  i_cnt : nxt s = created t;
  i_desc : forall d x, hp s d = Some x ->
    (d < created t)%nat /\ (d_ref x = handles t d \/ (ex = Some d /\ d_ref x = 1 /\ handles t d = 0)) /\ d_ar x = is_ar t d /\ d_parent x = from t d /\ d_longnames_ok x = true /\
    (d_ar x = false -> d_children x = []) /\ NoDup (d_children x) /\
    (forall c, In c (d_children x) <-> from t c = Some d /\ live s c);
  i_use : forall d x, hp s d = Some x -> ex <> Some d -> 0 < handles t d \/ d_children x <> [];
  i_hand : forall d, 0 <= handles t d /\ (0 < handles t d -> live s d);
  i_from : forall c d, from t c = Some d -> (d < c < created t)%nat /\ is_ar t d = true /\ (live s c -> live s d) }.

Lemma put_same : forall f d x, put f d x d = x.
Proof. intros. unfold put. rewrite Nat.eqb_refl. reflexivity. Qed.
Lemma put_other : forall f d x y, y <> d -> put f d x y = f y.
Proof. intros f d x y N. unfold put. apply Nat.eqb_neq in N. rewrite N. reflexivity. Qed.
Lemma setf_same : forall A (f : nat -> A) d x, setf f d x d = x.
Proof. intros. unfold setf. rewrite Nat.eqb_refl. reflexivity. Qed.
Lemma setf_other : forall A (f : nat -> A) d x y, y <> d -> setf f d x y = f y.
Proof. intros A f d x y N. unfold setf. apply Nat.eqb_neq in N. rewrite N. reflexivity. Qed.

Lemma live_store : forall s d x y, live s d -> (live (store s d x) y <-> live s y).
Proof.
  intros s d x y L. unfold live, store. cbn [hp]. destruct (Nat.eq_dec y d) as [->|N].
  - rewrite put_same. split; [intros _; exact L|discriminate].
  - rewrite put_other by exact N. tauto.
Qed.

Lemma live_needed : forall s t, inv None s t -> forall d, live s d <-> needed t d.
Proof.
  intros s t I d. split.
  - assert (G : forall n d, (created t - d <= n)%nat -> live s d -> needed t d).
    { induction n as [|n IH]; intros e B L; unfold live in L; destruct (hp s e) as [x|] eqn:E; try contradiction;
        destruct (i_desc _ _ _ I e x E) as (LT & _ & _ & _ & _ & _ & _ & CH).
      - lia.
      - destruct (i_use _ _ _ I e x E) as [H|H]; [discriminate|now constructor|].
        destruct (d_children x) as [|c r] eqn:EC; [contradiction|]. destruct (proj1 (CH c)) as [F LC]; [left; reflexivity|].
        apply (needed_member t c e F). apply IH; [|exact LC]. pose proof (proj1 (i_from _ _ _ I c e F)). lia. }
    intros L. exact (G _ d (le_n _) L).
  - induction 1 as [d H|c d F N IH].
    + exact (proj2 (i_hand _ _ _ I d) H).
    + exact (proj2 (proj2 (i_from _ _ _ I c d F)) IH).
Qed.

Lemma unlink_ok : forall l d, In d l -> NoDup l -> exists l', unlink l d = Ok l' /\ NoDup l' /\ (forall c, In c l' <-> In c l /\ c <> d).
Proof.
  induction l as [|a l IH]; intros d I ND; [destruct I|]. cbn [unlink]. inversion ND as [|? ? NI ND']; subst.
  destruct (Nat.eqb a d) eqn:E.
  - apply Nat.eqb_eq in E. subst a. exists l. split; [reflexivity|]. split; [exact ND'|]. intros c. cbn.
    split; [intros C; split; [right; exact C|intros ->; contradiction]|]. intros [[->|C] N]; [contradiction|exact C].
  - apply Nat.eqb_neq in E. destruct I as [I|I]; [contradiction|]. destruct (IH d I ND') as (l' & -> & ND2 & IN). cbn [obind].
    eexists. split; [reflexivity|]. split.
    + constructor; [|exact ND2]. intros C. apply IN in C. tauto.
    + intros c. cbn. rewrite IN. split; [intros [->|[C N]]; [split; [left; reflexivity|congruence]|tauto]|].
      intros [[->|C] N]; tauto.
Qed.

(* Ending a descriptor without references restores the invariant. *)
Lemma end_ok : forall fuel s t d, inv (Some d) s t -> live s d -> handles t d = 0 -> (d < fuel)%nat ->
  exists s', elf_end fuel s d = Ok (s', 0) /\ inv None s' t.
Proof.
  induction fuel as [|fuel IH]; intros s t d I L H F; [lia|]. cbn [elf_end]. unfold deref at 1.
  unfold live in L. destruct (hp s d) as [x|] eqn:E; [|contradiction]. clear L. cbn [obind].
  destruct (i_desc _ _ _ I d x E) as (LT & R & AR & PA & LN & CA & ND & CH).
  replace (negb (d_ref x =? 0) && negb (d_ref x - 1 =? 0)) with false by lia. cbv zeta.
  cbn [set_ref d_ar d_children d_parent d_longnames_ok].
  set (s1 := store s d (set_ref x 0)).
  assert (S1 : forall y, y <> d -> hp s1 y = hp s y).
  { intros y N. unfold s1, store. cbn [hp]. apply put_other, N. }
  assert (S1d : hp s1 d = Some (set_ref x 0)) by (unfold s1, store; cbn [hp]; apply put_same).
  assert (LV1 : forall y, live s1 y <-> live s y).
  { intros y. apply live_store. unfold live. congruence. }
  destruct (d_ar x && match d_children x with [] => false | _ => true end) eqn:B.
  - exists s1. split; [reflexivity|]. destruct I as [I1 I2 I3 I4 I5]. constructor; auto.
    + intros e y EE. destruct (Nat.eq_dec e d) as [->|N].
      * rewrite S1d in EE. inversion EE; subst y. cbn [set_ref d_ref d_ar d_parent d_longnames_ok d_children].
        split; [exact LT|]. split; [left; congruence|]. repeat (split; [assumption|]). intros c. rewrite CH, LV1. tauto.
      * rewrite S1 in EE by exact N. destruct (I2 e y EE) as (A1 & A2 & A3 & A4 & A5 & A6 & A7 & A8).
        split; [exact A1|]. split; [destruct A2 as [A2|(A2 & _)]; [left; exact A2|congruence]|]. repeat (split; [assumption|]).
        intros c. rewrite A8, LV1. tauto.
    + intros e y EE _. destruct (Nat.eq_dec e d) as [->|N]; [|rewrite S1 in EE by exact N; apply (I3 e y EE); congruence].
      right. rewrite S1d in EE. inversion EE; subst y. apply andb_prop in B. destruct B as [_ B]. cbn [set_ref d_children]. destruct (d_children x); discriminate.
    + intros e. destruct (I4 e) as [P Q]. split; [exact P|]. rewrite LV1. exact Q.
    + intros c e FR. destruct (I5 c e FR) as (P & Q & W). split; [exact P|]. split; [exact Q|]. rewrite !LV1. exact W.
  - assert (NC : d_children x = []).
    { destruct (d_ar x) eqn:A; [|apply CA; reflexivity]. destruct (d_children x); [reflexivity|discriminate]. }
    rewrite LN. cbn [negb]. rewrite andb_false_r.
    destruct I as [I1 I2 I3 I4 I5].
    assert (NCH : forall c, from t c = Some d -> live s c -> False).
    { intros c F1 F2. assert (In c (d_children x)) by (apply CH; auto). rewrite NC in *. contradiction. }
    rewrite PA. destruct (from t d) as [p|] eqn:FD.
    + destruct (I5 d p FD) as (LP & ARP & LVP). unfold deref. assert (DP : p <> d) by lia. rewrite S1 by exact DP.
      assert (LP' : live s p) by (apply LVP; unfold live; congruence). unfold live in LP'.
      destruct (hp s p) as [y|] eqn:EP; [|contradiction]. clear LP'. cbn [obind].
      destruct (I2 p y EP) as (PLT & PR & PAR & PPA & PLN & PCA & PND & PCH).
      destruct (unlink_ok (d_children y) d) as (l' & -> & NDl & INl).
      { apply PCH. split; [exact FD|]. unfold live. congruence. }
      { exact PND. }
      cbn [obind]. set (s2 := store s1 p (set_children y l')). set (s3 := St (put (hp s2) d None) (nxt s2)).
      assert (S3p : hp s3 p = Some (set_children y l')).
      { unfold s3. cbn [hp]. rewrite put_other by exact DP. unfold s2, store. cbn [hp]. apply put_same. }
      rewrite S3p. cbn [obind]. cbn [set_children d_ref].
      assert (PR' : d_ref y = handles t p) by (destruct PR as [PR|(PR & _)]; [exact PR|congruence]). rewrite PR'.
      assert (S3d : hp s3 d = None) by (unfold s3; cbn [hp]; apply put_same).
      assert (S3o : forall e, e <> d -> e <> p -> hp s3 e = hp s e).
      { intros e N1 N2. unfold s3. cbn [hp]. rewrite put_other by exact N1. unfold s2, store. cbn [hp]. rewrite put_other by exact N2. apply S1, N1. }
      assert (LV : forall e, live s3 e <-> live s e /\ e <> d).
      { intros e. unfold live. destruct (Nat.eq_dec e d) as [->|N1]; [rewrite S3d; split; [intros Z; contradiction|intros [_ Z]; contradiction]|].
        destruct (Nat.eq_dec e p) as [->|N2]; [rewrite S3p, EP; split; [intros _; split; [discriminate|exact N1]|discriminate]|].
        rewrite S3o by assumption. tauto. }
      assert (I' : inv (Some p) s3 t).
      { constructor.
        - exact I1.
        - intros e z EZ. destruct (Nat.eq_dec e d) as [->|N1]; [congruence|]. destruct (Nat.eq_dec e p) as [->|N2].
          + rewrite S3p in EZ. inversion EZ; subst z. cbn [set_children d_ref d_ar d_parent d_longnames_ok d_children].
            split; [exact PLT|]. split; [left; exact PR'|]. split; [exact PAR|]. split; [exact PPA|]. split; [exact PLN|].
            split; [intros Z; congruence|]. split; [exact NDl|]. intros c. rewrite INl, PCH, LV. tauto.
          + rewrite S3o in EZ by assumption. destruct (I2 e z EZ) as (A1 & A2 & A3 & A4 & A5 & A6 & A7 & A8).
            split; [exact A1|]. split; [destruct A2 as [A2|(A2 & _)]; [left; exact A2|congruence]|]. repeat (split; [assumption|]).
            intros c. rewrite A8, LV. split; [|tauto]. intros [C1 C2]. split; [exact C1|]. split; [exact C2|]. intros ->. congruence.
        - intros e z EZ NP. destruct (Nat.eq_dec e d) as [->|N1]; [congruence|]. destruct (Nat.eq_dec e p) as [->|N2]; [congruence|].
          rewrite S3o in EZ by assumption. apply (I3 e z EZ). congruence.
        - intros e. destruct (I4 e) as [P Q]. split; [exact P|]. intros HP. apply LV. split; [apply Q, HP|]. intros ->. lia.
        - intros c e FR. destruct (I5 c e FR) as (P & Q & W). split; [exact P|]. split; [exact Q|]. rewrite !LV.
          intros [C1 C2]. split; [apply W, C1|]. intros ->. exact (NCH c FR C1). }
      destruct (handles t p =? 0) eqn:HP0.
      * apply IH; [exact I'|unfold live; rewrite S3p; discriminate|lia|lia].
      * exists s3. split; [reflexivity|]. destruct I' as [J1 J2 J3 J4 J5]. constructor; auto.
        { intros e z EZ. destruct (J2 e z EZ) as (A1 & A2 & A). split; [exact A1|]. split; [|exact A]. destruct A2 as [A2|(A2 & _ & A3)]; [left; exact A2|]. inversion A2; subst e. lia. }
        intros e z EZ _. destruct (Nat.eq_dec e p) as [->|N2]; [left; pose proof (proj1 (I4 p)); lia|]. apply (J3 e z EZ). congruence.
    + cbn [obind]. set (s3 := St (put (hp s1) d None) (nxt s1)).
      assert (S3d : hp s3 d = None) by (unfold s3; cbn [hp]; apply put_same).
      assert (S3o : forall e, e <> d -> hp s3 e = hp s e).
      { intros e N1. unfold s3. cbn [hp]. rewrite put_other by exact N1. apply S1, N1. }
      assert (LV : forall e, live s3 e <-> live s e /\ e <> d).
      { intros e. unfold live. destruct (Nat.eq_dec e d) as [->|N1]; [rewrite S3d; split; [intros Z; contradiction|intros [_ Z]; contradiction]|].
        rewrite S3o by assumption. tauto. }
      exists s3. split; [reflexivity|]. constructor.
      * exact I1.
      * intros e z EZ. destruct (Nat.eq_dec e d) as [->|N1]; [congruence|].
        rewrite S3o in EZ by assumption. destruct (I2 e z EZ) as (A1 & A2 & A3 & A4 & A5 & A6 & A7 & A8).
            split; [exact A1|]. split; [destruct A2 as [A2|(A2 & _)]; [left; exact A2|congruence]|]. repeat (split; [assumption|]).
        intros c. rewrite A8, LV. split; [|tauto]. intros [C1 C2]. split; [exact C1|]. split; [exact C2|]. intros ->. congruence.
      * intros e z EZ _. destruct (Nat.eq_dec e d) as [->|N1]; [congruence|]. rewrite S3o in EZ by assumption. apply (I3 e z EZ). congruence.
      * intros e. destruct (I4 e) as [P Q]. split; [exact P|]. intros HP. apply LV. split; [apply Q, HP|]. intros ->. lia.
      * intros c e FR. destruct (I5 c e FR) as (P & Q & W). split; [exact P|]. split; [exact Q|]. rewrite !LV.
        intros [C1 C2]. split; [apply W, C1|]. intros ->. exact (NCH c FR C1).
Qed.

Lemma add_same : forall t d k, handles (add_handles t d k) d = handles t d + k.
Proof. intros. cbn [add_handles handles]. apply setf_same. Qed.
Lemma add_other : forall t d k e, e <> d -> handles (add_handles t d k) e = handles t e.
Proof. intros. cbn [add_handles handles]. apply setf_other. assumption. Qed.

(* Changing the reference count and the handles together *)
Lemma inv_ref : forall s t d x k, inv None s t -> hp s d = Some x -> 0 < handles t d + k ->
  inv None (store s d (set_ref x (d_ref x + k))) (add_handles t d k).
Proof.
  intros s t d x k [I1 I2 I3 I4 I5] E H.
  assert (L : live s d) by (unfold live; congruence).
  constructor.
  - exact I1.
  - intros e y EE. unfold store in EE. cbn [hp] in EE. destruct (Nat.eq_dec e d) as [->|N].
    + rewrite put_same in EE. inversion EE; subst y. cbn [set_ref d_ref d_ar d_parent d_longnames_ok d_children].
      destruct (I2 d x E) as (A1 & A2 & A3 & A4 & A5 & A6 & A7 & A8). rewrite add_same. split; [exact A1|].
      split; [left; destruct A2 as [A2|(A2 & _)]; [lia|discriminate]|]. repeat (split; [assumption|]).
      intros c. rewrite live_store by exact L. apply A8.
    + rewrite put_other in EE by exact N. destruct (I2 e y EE) as (A1 & A2 & A3 & A4 & A5 & A6 & A7 & A8). rewrite add_other by exact N.
      repeat (split; [assumption|]). intros c. rewrite live_store by exact L. apply A8.
  - intros e y EE _. unfold store in EE. cbn [hp] in EE. destruct (Nat.eq_dec e d) as [->|N].
    + left. rewrite add_same. lia.
    + rewrite put_other in EE by exact N. rewrite add_other by exact N. apply (I3 e y EE). discriminate.
  - intros e. rewrite live_store by exact L. destruct (Nat.eq_dec e d) as [->|N]; [rewrite add_same; split; [lia|intros _; exact L]|].
    rewrite add_other by exact N. apply I4.
  - intros c e FR. rewrite !live_store by exact L. exact (I5 c e FR).
Qed.

(* A new descriptor, not a member *)
Lemma fresh_facts : forall s t, inv None s t -> hp s (created t) = None /\ handles t (created t) = 0 /\ (forall c, from t c <> Some (created t)) /\ from t (created t) = None.
Proof.
  intros s t [I1 I2 I3 I4 I5].
  assert (F : hp s (created t) = None).
  { destruct (hp s (created t)) as [x|] eqn:E; [|reflexivity]. destruct (I2 _ _ E). lia. }
  split; [exact F|]. split.
  { destruct (I4 (created t)) as [P Q]. destruct (Z.eq_dec (handles t (created t)) 0); [assumption|]. exfalso. apply Q; [lia|exact F]. }
  split.
  { intros c FR. destruct (I5 c _ FR). lia. }
  destruct (from t (created t)) as [p|] eqn:FR; [|reflexivity]. destruct (I5 _ _ FR). lia.
Qed.
Lemma inv_root : forall s t ar, inv None s t ->
  inv None (St (put (hp s) (nxt s) (Some (Desc 1 ar None [] true))) (S (nxt s))) (new_desc t None ar).
Proof.
  intros s t ar I. destruct (fresh_facts s t I) as (F1 & F2 & F3 & F4). destruct I as [I1 I2 I3 I4 I5]. rewrite I1.
  set (s' := St _ _).
  assert (LV : forall e, live s' e <-> live s e \/ e = created t).
  { intros e. unfold live, s'. cbn [hp]. destruct (Nat.eq_dec e (created t)) as [->|N]; [rewrite put_same; split; [auto|discriminate]|].
    rewrite put_other by exact N. tauto. }
  assert (FR' : forall c, from (new_desc t None ar) c = from t c).
  { intros c. cbn [new_desc from]. destruct (Nat.eq_dec c (created t)) as [->|N]; [rewrite setf_same; congruence|apply setf_other, N]. }
  constructor.
  - reflexivity.
  - intros e y EE. unfold s' in EE. cbn [hp] in EE. rewrite FR'. cbn [new_desc created handles is_ar]. destruct (Nat.eq_dec e (created t)) as [->|N].
    + rewrite put_same in EE. inversion EE; subst y. cbn [d_ref d_ar d_parent d_longnames_ok d_children]. rewrite !setf_same, F4.
      split; [lia|]. split; [left; reflexivity|]. split; [reflexivity|]; split; [reflexivity|]; split; [reflexivity|]; split; [reflexivity|]; split; [constructor|]. intros c. rewrite FR'. split; [intros []|]. intros [C _]. exact (F3 c C).
    + rewrite put_other in EE by exact N. destruct (I2 e y EE) as (A1 & A2 & A3 & A4 & A5 & A6 & A7 & A8). rewrite !setf_other by exact N.
      split; [lia|]. repeat (split; [assumption|]). intros c. rewrite FR', A8, LV. split; [tauto|]. intros [C1 [C2| ->]]; [tauto|congruence].
  - intros e y EE _. unfold s' in EE. cbn [hp] in EE. cbn [new_desc handles]. destruct (Nat.eq_dec e (created t)) as [->|N].
    + left. rewrite setf_same. lia.
    + rewrite put_other in EE by exact N. rewrite setf_other by exact N. apply (I3 e y EE). discriminate.
  - intros e. rewrite LV. cbn [new_desc handles]. destruct (Nat.eq_dec e (created t)) as [->|N]; [rewrite setf_same; split; [lia|auto]|].
    rewrite setf_other by exact N. destruct (I4 e). tauto.
  - intros c e FR. rewrite FR' in FR. rewrite !LV. destruct (I5 c e FR) as (P & Q & W). cbn [new_desc created is_ar].
    rewrite setf_other by lia. split; [lia|]. split; [exact Q|]. intros [C| ->]; [left; apply W, C|lia].
Qed.
(* A new member of the archive d *)
Lemma inv_member : forall s t d x ar, inv None s t -> hp s d = Some x -> 0 < handles t d -> d_ar x = true ->
  inv None (store (St (put (hp s) (nxt s) (Some (Desc 1 ar (Some d) [] true))) (S (nxt s))) d (set_children x (nxt s :: d_children x)))
    (new_desc t (Some d) ar).
Proof.
  intros s t d x ar I E H AX. destruct (fresh_facts s t I) as (F1 & F2 & F3 & F4). destruct I as [I1 I2 I3 I4 I5]. rewrite I1.
  destruct (I2 d x E) as (DLT & DR & DAR & DPA & DLN & DCA & DND & DCH).
  set (s' := store _ _ _).
  assert (ND : d <> created t) by lia.
  assert (Sn : hp s' (created t) = Some (Desc 1 ar (Some d) [] true)).
  { unfold s', store. cbn [hp]. rewrite put_other by congruence. apply put_same. }
  assert (Sd : hp s' d = Some (set_children x (created t :: d_children x))).
  { unfold s', store. cbn [hp]. apply put_same. }
  assert (So : forall e, e <> d -> e <> created t -> hp s' e = hp s e).
  { intros e N1 N2. unfold s', store. cbn [hp]. rewrite put_other by exact N1. apply put_other, N2. }
  assert (LV : forall e, live s' e <-> live s e \/ e = created t).
  { intros e. unfold live. destruct (Nat.eq_dec e (created t)) as [->|N]; [rewrite Sn; split; [auto|discriminate]|].
    destruct (Nat.eq_dec e d) as [->|N']; [rewrite Sd, E; split; [left; discriminate|discriminate]|].
    rewrite So by assumption. tauto. }
  assert (FR' : forall c, c <> created t -> from (new_desc t (Some d) ar) c = from t c).
  { intros c N. cbn [new_desc from]. apply setf_other, N. }
  assert (FRn : from (new_desc t (Some d) ar) (created t) = Some d) by (cbn [new_desc from]; apply setf_same).
  constructor.
  - reflexivity.
  - intros e y EE. cbn [new_desc created handles is_ar]. destruct (Nat.eq_dec e (created t)) as [->|N].
    + rewrite Sn in EE. inversion EE; subst y. cbn [d_ref d_ar d_parent d_longnames_ok d_children]. rewrite !setf_same.
      rewrite FRn. split; [lia|]. split; [left; reflexivity|]. split; [reflexivity|]; split; [reflexivity|]; split; [reflexivity|]; split; [reflexivity|]; split; [constructor|]. intros c. split; [intros []|].
      destruct (Nat.eq_dec c (created t)) as [->|N]; [rewrite FRn; intros [C _]; congruence|]. rewrite FR' by exact N. intros [C _]. exact (F3 c C).
    + rewrite FR' by exact N. rewrite !setf_other by exact N. destruct (Nat.eq_dec e d) as [->|N'].
      * rewrite Sd in EE. inversion EE; subst y. cbn [set_children d_ref d_ar d_parent d_longnames_ok d_children].
        split; [lia|]. split; [exact DR|]. split; [exact DAR|]. split; [exact DPA|]. split; [exact DLN|]. split; [congruence|]. split.
        { constructor; [|exact DND]. intros C. apply DCH in C. destruct C as [C _]. congruence. }
        intros c. cbn [In]. rewrite LV. destruct (Nat.eq_dec c (created t)) as [->|Nc]; [rewrite FRn; tauto|]. rewrite FR' by exact Nc. rewrite DCH.
        split; [intros [C|C]; [congruence|tauto]|]. intros [C1 [C2|C2]]; [tauto|congruence].
      * rewrite So in EE by assumption. destruct (I2 e y EE) as (A1 & A2 & A3 & A4 & A5 & A6 & A7 & A8).
        split; [lia|]. repeat (split; [assumption|]). intros c. rewrite A8, LV.
        destruct (Nat.eq_dec c (created t)) as [->|Nc]; [rewrite FRn; split; [intros [C1 C2]; congruence|intros [C1 _]; congruence]|].
        rewrite FR' by exact Nc. split; [tauto|]. intros [C1 [C2|C2]]; [tauto|congruence].
  - intros e y EE _. cbn [new_desc handles]. destruct (Nat.eq_dec e (created t)) as [->|N]; [left; rewrite setf_same; lia|].
    rewrite setf_other by exact N. destruct (Nat.eq_dec e d) as [->|N']; [left; exact H|].
    rewrite So in EE by assumption. apply (I3 e y EE). discriminate.
  - intros e. rewrite LV. cbn [new_desc handles]. destruct (Nat.eq_dec e (created t)) as [->|N]; [rewrite setf_same; split; [lia|auto]|].
    rewrite setf_other by exact N. destruct (I4 e). tauto.
  - intros c e FR. rewrite !LV. cbn [new_desc created is_ar]. destruct (Nat.eq_dec c (created t)) as [->|Nc].
    + rewrite FRn in FR. inversion FR; subst e. rewrite setf_other by exact ND. split; [lia|]. split; [congruence|]. intros _. left. unfold live. congruence.
    + rewrite FR' in FR by exact Nc. destruct (I5 c e FR) as (P & Q & W). rewrite setf_other by lia. split; [lia|]. split; [exact Q|].
      intros [C|C]; [left; apply W, C|contradiction].
Qed.

Lemma call_ok : forall c s t t' r, inv None s t -> spec_call t c = Some (t', r) ->
  exists s', do_call s c = Ok (s', r) /\ inv None s' t'.
Proof.
  intros c s t t' r I S.
  assert (HL : forall d, (handles t d <=? 0) = false -> exists x, hp s d = Some x /\ d_ref x = handles t d /\ d_ar x = is_ar t d /\ d_parent x = from t d).
  { intros d H. assert (L : live s d) by (apply (proj2 (i_hand _ _ _ I d)); lia). unfold live in L. destruct (hp s d) as [x|] eqn:E; [|contradiction].
    destruct (i_desc _ _ _ I d x E) as (_ & R & A & P & _). exists x. split; [reflexivity|]. split; [destruct R as [R|(R & _)]; [exact R|discriminate]|]. auto. }
  pose proof (i_cnt _ _ _ I) as CNT.
  destruct c as [ok|d ok|d ok|d]; cbn [spec_call do_call] in *; rewrite <- ?CNT in S.
  - destruct ok as [ar|]; inversion S; subst; cbn [elf_begin allocate obind].
    + eexists. split; [reflexivity|]. apply inv_root, I.
    + eexists. split; [reflexivity|exact I].
  - destruct (handles t d <=? 0) eqn:H; [discriminate|]. destruct (HL d H) as (x & E & R & A & P). cbn [elf_begin]. unfold deref at 1. rewrite E. cbn [obind].
    destruct ok as [ar|]; [|inversion S; subst; eexists; split; [reflexivity|exact I]].
    rewrite A. destruct (is_ar t d) eqn:AR; cbn [negb].
    + inversion S; subst t' r. cbn [allocate]. unfold deref. cbn [hp]. rewrite put_other, E by (destruct (i_desc _ _ _ I d x E); rewrite (i_cnt _ _ _ I); lia).
      cbn [obind]. eexists. split; [reflexivity|]. apply inv_member; [exact I|exact E|lia|congruence].
    + destruct (handles t d <? two31 - 1) eqn:B; [|discriminate]. inversion S; subst t' r. replace (d_ref x =? two31 - 1) with false by lia.
      eexists. split; [reflexivity|]. apply inv_ref; [exact I|exact E|lia].
  - destruct (handles t d <=? 0) eqn:H; [discriminate|]. destruct (HL d H) as (x & E & R & A & P). unfold elf_clone, deref. rewrite E. cbn [obind orb] in *.
    destruct (is_ar t d) eqn:AR; [discriminate|]. destruct (from t d) eqn:FR; [discriminate|]. cbn [orb] in S. rewrite A, P.
    destruct ok; inversion S; subst; cbn [allocate obind negb]; [|eexists; split; [reflexivity|exact I]].
    eexists. split; [reflexivity|]. apply inv_root, I.
  - destruct (handles t d <=? 0) eqn:H; [discriminate|]. destruct (HL d H) as (x & E & R & A & P). inversion S; subst t' r. clear S.
    destruct (i_desc _ _ _ I d x E) as (LT & _).
    destruct (Z.eq_dec (handles t d) 1) as [H1|H1].
    + destruct (end_ok (S (nxt s)) s (add_handles t d (-1)) d) as (s' & EQ & I').
      * destruct I as [I1 I2 I3 I4 I5]. constructor.
        { exact I1. }
        { intros e y EE. destruct (I2 e y EE) as (A1 & A2 & B). destruct (Nat.eq_dec e d) as [->|N].
          - rewrite add_same. split; [exact A1|]. split; [right; split; [reflexivity|]; rewrite E in EE; inversion EE; subst y; lia|exact B].
          - rewrite add_other by exact N. split; [exact A1|]. split; [destruct A2 as [A2|(A2 & _)]; [left; exact A2|discriminate]|exact B]. }
        { intros e y EE N. assert (e <> d) by congruence. rewrite add_other by assumption. apply (I3 e y EE). discriminate. }
        { intros e. destruct (I4 e) as [P1 P2]. destruct (Nat.eq_dec e d) as [->|N]; [rewrite add_same; split; [lia|lia]|rewrite add_other by exact N; auto]. }
        { exact I5. }
      * unfold live. congruence.
      * rewrite add_same. lia.
      * rewrite (i_cnt _ _ _ I). lia.
      * rewrite EQ. cbn [obind]. exists s'. split; [|exact I']. do 3 f_equal. lia.
    + cbn [elf_end]. unfold deref at 1. rewrite E. cbn [obind]. replace (negb (d_ref x =? 0) && negb (d_ref x - 1 =? 0)) with true by lia.
      cbn [obind]. rewrite <- R. eexists. split; [reflexivity|]. apply (inv_ref s t d x (-1)); [exact I|exact E|lia].
Qed.

Lemma calls_ok : forall cs s t t' rs, inv None s t -> spec_calls t cs = Some (t', rs) ->
  exists s', do_calls s cs = Ok (s', rs) /\ inv None s' t'.
Proof.
  induction cs as [|c cs IH]; intros s t t' rs I S; cbn [spec_calls do_calls] in *.
  - inversion S; subst. eauto.
  - destruct (spec_call t c) as [[t1 r]|] eqn:E; [|discriminate]. destruct (spec_calls t1 cs) as [[t2 rs2]|] eqn:E2; [|discriminate].
    inversion S; subst. destruct (call_ok c s t t1 r I E) as (s1 & -> & I1). cbn [obind].
    destruct (IH s1 t1 t' rs2 I1 E2) as (s2 & -> & I2). cbn [obind]. eauto.
Qed.
Lemma inv0 : inv None st0 held0.
Proof. constructor; cbn; try discriminate; auto. intros d. split; [lia|lia]. Qed.

(* For every sequence of elf_begin, elf_clone and elf_end calls in which the program
   uses only descriptors it still holds handles of: no call touches a freed descriptor,
   frees one twice or runs off a list; every call returns what it should (elf_end the
   number of handles left); and afterwards exactly the descriptors still needed - a
   handle is held, or a member opened from it is needed - are allocated.  As this holds
   after each call of a history, each descriptor is freed by the call that makes it
   superfluous, and an archive outlives its open members.
   Missing for the whole claim: cloning archive members and archives (refuted below). *)
Theorem C30_lifetime_partial : forall cs t rs, spec_calls held0 cs = Some (t, rs) ->
  exists s, do_calls st0 cs = Ok (s, rs) /\
    forall d, (exists x, hp s d = Some x) <-> needed t d.
Proof.
  intros cs t rs S. destruct (calls_ok cs st0 held0 t rs inv0 S) as (s & E & I). exists s. split; [exact E|].
  intros d. rewrite <- (live_needed s t I d). unfold live. destruct (hp s d); split; intros H; try discriminate; eauto; [destruct H; discriminate|contradiction].
Qed.
Print Assumptions C30_lifetime_partial.
(* An archive, a nested archive in it, a member of that, used twice; the archives
   are ended first and go with the last handle of the member. *)
Example C30_lifetime_nonvacuous :
  let cs := [Open (Some true); Dup 0 (Some true); Dup 1 (Some false); Dup 2 (Some false); End 0; End 1; End 2] in
  (match spec_calls held0 cs with Some (t, rs) => Some (handles t 2%nat, rs) | None => None end
   = Some (1%Z, [RDesc (Some 0); RDesc (Some 1); RDesc (Some 2); RDesc (Some 2); RNum 0; RNum 0; RNum 1])%nat) /\
  (match do_calls st0 cs with Ok (s, _) => Some (map (fun d => match hp s d with Some _ => true | None => false end) [0; 1; 2]%nat) | _ => None end
   = Some [true; true; true]) /\
  (match do_calls st0 (cs ++ [End 2]) with Ok (s, _) => Some (map (fun d => match hp s d with Some _ => true | None => false end) [0; 1; 2]%nat) | _ => None end
   = Some [false; false; false]).
Proof. split; [|split]; vm_compute; reflexivity. Qed.

(* elf_clone of an archive member copies the parent pointer without entering the
   clone in the parent's list: ending the clone runs off the list. *)
Theorem C30_clone_member_refuted : exists d,
  do_calls st0 [Open (Some true); Dup 0 (Some false); Clone 1 true] <> UB /\
  do_calls st0 [Open (Some true); Dup 0 (Some false); Clone 1 true; End d] = UB.
Proof. exists 2%nat. split; vm_compute; [discriminate|reflexivity]. Qed.
Print Assumptions C30_clone_member_refuted.
(* If meanwhile the archive has been freed, ending the clone uses freed memory. *)
Theorem C30_clone_outlives_refuted :
  exists s, (exists rs, do_calls st0 [Open (Some true); Dup 0 (Some false); Clone 1 true; End 1; End 0] = Ok (s, rs)) /\
    hp s 0%nat = None /\ (exists x, hp s 2%nat = Some x /\ d_parent x = Some 0%nat) /\ do_call s (End 2) = UB.
Proof.
  eexists. split; [eexists; vm_compute; reflexivity|]. split; [reflexivity|]. split; [eexists; split; reflexivity|vm_compute; reflexivity].
Qed.
Print Assumptions C30_clone_outlives_refuted.
(* elf_clone of an archive: elf_end passes to free a pointer that malloc never
   returned. *)
Theorem C30_clone_archive_refuted :
  do_calls st0 [Open (Some true); Clone 0 true] <> UB /\
  do_calls st0 [Open (Some true); Clone 0 true; End 1] = UB.
Proof. split; vm_compute; [discriminate|reflexivity]. Qed.
Print Assumptions C30_clone_archive_refuted.
