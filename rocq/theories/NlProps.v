(* C85: nlist. *)
From Verif Require Import Base PrimeModel PrimeProof HashModel HashSpec HtabModel HtabSpec HtabProof HtabFsProof NlModel NlSpec NlProof PrimeProps.
From Coq Require Import Znumtheory.

(* Partial: names that hash to zero are excluded, see the two refutations below.  The prime bound P
   is there because the existence of a prime for the table size is not proved (see C09). *)
Theorem C85_answers_partial : forall P fuel scns s syms reqs en rest,
  Forall (fun x => s_hdr x = true) scns -> counts scns s -> readable s syms ->
  Forall (fun p => cstring (fst p) /\ (fst p <> [] -> abi_hash (fst p) <> 0)) syms ->
  Forall request reqs -> Forall (fun e => forall n, e_name e = Some n -> abi_hash n <> 0) reqs -> ends en ->
  prime P -> P < 2 ^ 56 -> P < Z.of_nat fuel -> Z.max (zlen syms * 3 / 2) 10 <= P ->
  exists out, nlist fuel (fun _ => true) (Some scns) (reqs ++ en :: rest) = Ok (0, out ++ en :: rest) /\ Forall2 (entry_for syms) reqs out.
Proof.
  intros P fuel scns s syms reqs en rest Hh Hc (Hs & Hd & Hy) Hn Hr Hz He HP P56 Pf Pn.
  unfold nlist. assert (E : find_table scns None = Some (Some s)).
  { apply table_ok; [exact Hh|]. destruct Hc as [H|[H K]]; [left; exact H|]. right. split; [exact H|]. left. exact K. }
  rewrite E, Hd. cbn [negb].
  assert (Z1 : zlen (s_syms s) = zlen syms) by (rewrite Hy; unfold zlen; rewrite map_length; reflexivity).
  rewrite Z1. pose proof (zlen_nonneg _ syms) as Zn.
  destruct (fs_init_ok hent same_name fuel P (zlen syms) HP P56 Pf Zn Pn) as (t & Et & It & St).
  rewrite Et. cbn [obind]. rewrite Hy.
  assert (SZ : zlen syms < fs_nslots t).
  { pose proof (Z.div_mod (zlen syms * 3) 2 ltac:(lia)). pose proof (Z.mod_pos_bound (zlen syms * 3) 2 ltac:(lia)). lia. }
  destruct (enter_ok syms [] t [] 0 It) as (t' & m' & c' & E1 & I1 & S1 & H1).
  { intros n _ _ _. simpl. auto. }
  { lia. } { lia. } { exact Hn. }
  rewrite E1. cbn [obind].
  destruct (ask_ok reqs syms t' m' c' en rest I1 S1 H1) as (out & E2 & F2).
  { clear -Hr Hz. induction reqs as [|e r IH]; [constructor|]. inversion Hr as [|? ? (n & En & Nn & Cn) Hr2]; inversion Hz as [|? ? Z1 Z2]; subst.
    constructor; [|auto]. exists n. split; [exact En|]. split; [exact Nn|]. split; [exact Cn|]. intros _. apply Z1. exact En. }
  { exact He. }
  rewrite E2. cbn [obind]. exists out. auto.
Qed.
Print Assumptions C85_answers_partial.

(* "a" twice, "main"; the caller asks for "main", "a" and "b" *)
Definition na : bytes := [97].
Definition nmain : bytes := [109; 97; 105; 110].
Definition demo_syms : list (bytes * nsym) := [([], Nsym 0 0 0); (na, Nsym 16 1 1); (nmain, Nsym 4096 1 18); (na, Nsym (2 ^ 64 - 1) 65521 17)].
Definition demo_scns : list nscn :=
  [Nscn true 0 false []; Nscn true 11 true []; Nscn true 2 true (map (fun p => Some (snd p, Some (fst p))) demo_syms); Nscn true 3 true []].
Definition req (n : bytes) : nent := Nent (Some n) 7 7 7 7 7.
Definition stop : nent := Nent None 9 9 9 9 9.
Example C85_answers_nonvacuous :
  counts demo_scns (Nscn true 2 true (map (fun p => Some (snd p, Some (fst p))) demo_syms)) /\
  Forall (fun p => cstring (fst p) /\ (fst p <> [] -> abi_hash (fst p) <> 0)) demo_syms /\ prime 101 /\
  nlist 200 (fun _ => true) (Some demo_scns) [req nmain; req na; req [98]; stop; req na] =
  Ok (0, [Nent (Some nmain) 4096 1 2 0 0; Nent (Some na) (-1) (-15) 1 0 0; Nent (Some [98]) 0 0 0 0 0; stop; req na]).
Proof.
  split; [left; exists [Nscn true 0 false []; Nscn true 11 true []], [Nscn true 3 true []]; split; [reflexivity|]; split; [reflexivity|repeat constructor; discriminate]|].
  split; [unfold demo_syms; repeat (apply Forall_cons; [split; [repeat (apply Forall_cons; [cbn; lia|]); apply Forall_nil|vm_compute; congruence]|]); apply Forall_nil|].
  split; [apply C09_next_prime_nonvacuous|vm_compute; reflexivity].
Qed.

(* Whenever nlist fails, its answer is -1, every request is zeroed and the rest of the array is as it was. *)
Theorem C85_fail : forall fuel alloc file reqs en rest r nl, Forall request reqs -> ends en ->
  nlist fuel alloc file (reqs ++ en :: rest) = Ok (r, nl) -> r = 0 \/ (r = -1 /\ nl = map nothing reqs ++ en :: rest).
Proof.
  intros fuel alloc file reqs en rest r nl Hr He.
  assert (F : failed (reqs ++ en :: rest) = Ok (r, nl) -> r = -1 /\ nl = map nothing reqs ++ en :: rest).
  { unfold failed. rewrite zero_ok by auto. cbn [obind]. intros H. injection H as <- <-. auto. }
  unfold nlist. destruct file as [scns|]; [|auto].
  destruct (find_table scns None) as [[s|]|]; [|auto|auto].
  destruct (negb (s_data s)); [auto|].
  destruct (fs_init hent fuel alloc (zlen (s_syms s))) as [[t|]| | |]; cbn [obind]; try discriminate; [|auto].
  destruct (enter_syms t (s_syms s)) as [[t'|]| | |]; cbn [obind]; try discriminate; [|auto].
  destruct (ask t' (reqs ++ en :: rest)); cbn [obind]; try discriminate.
  intros H. injection H as <- <-. auto.
Qed.
Print Assumptions C85_fail.
Example C85_fail_nonvacuous : nlist 20 (fun _ => true) None [req nmain; stop; req na] = Ok (-1, [Nent (Some nmain) 0 0 0 0 0; stop; req na]).
Proof. reflexivity. Qed.

(* A file that cannot be opened, a section header that cannot be read before the table is found, a file without
   a symbol table and a table whose data cannot be read all give -1. *)
Theorem C85_missing : forall fuel alloc reqs en rest, Forall request reqs -> ends en ->
  let nl := map nothing reqs ++ en :: rest in
  nlist fuel alloc None (reqs ++ en :: rest) = Ok (-1, nl) /\
  (forall scns, Forall (fun x => s_type x <> 2 /\ s_type x <> 11) scns -> nlist fuel alloc (Some scns) (reqs ++ en :: rest) = Ok (-1, nl)) /\
  (forall a x b, Forall (fun x => s_type x <> 2) a -> s_hdr x = false -> nlist fuel alloc (Some (a ++ x :: b)) (reqs ++ en :: rest) = Ok (-1, nl)) /\
  (forall scns s, Forall (fun x => s_hdr x = true) scns -> counts scns s -> s_data s = false -> nlist fuel alloc (Some scns) (reqs ++ en :: rest) = Ok (-1, nl)).
Proof.
  intros fuel alloc reqs en rest Hr He nl.
  assert (F : failed (reqs ++ en :: rest) = Ok (-1, nl)) by (unfold failed; rewrite zero_ok by auto; reflexivity).
  split; [exact F|]. split; [|split].
  - intros scns H. unfold nlist. assert (E : find_table scns None = Some None \/ find_table scns None = None).
    { induction H as [|x l [H1 H2] _ IH]; [left; reflexivity|]. cbn [find_table]. destruct (s_hdr x); [|right; reflexivity]. cbn [negb].
      rewrite (proj2 (Z.eqb_neq _ _) H1), (proj2 (Z.eqb_neq _ _) H2). exact IH. }
    destruct E as [-> | ->]; exact F.
  - intros a x b Ha Hx. unfold nlist. assert (E : forall acc, find_table (a ++ x :: b) acc = None).
    { induction Ha as [|y l H1 _ IH]; intros acc; cbn [app find_table]; [rewrite Hx; reflexivity|]. destruct (s_hdr y); [|reflexivity]. cbn [negb].
      rewrite (proj2 (Z.eqb_neq _ _) H1). apply IH. }
    rewrite E. exact F.
  - intros scns s Hh Hc Hd. unfold nlist. assert (E : find_table scns None = Some (Some s)).
    { apply table_ok; [exact Hh|]. destruct Hc as [H|[H K]]; [left; exact H|]. right. split; [exact H|]. left. exact K. }
    rewrite E, Hd. exact F.
Qed.
Print Assumptions C85_missing.
Example C85_missing_nonvacuous : nlist 20 (fun _ => true) (Some [Nscn true 3 true []]) [req nmain; stop] = Ok (-1, [Nent (Some nmain) 0 0 0 0 0; stop]).
Proof. reflexivity. Qed.

(* If the answer is 0 then every symbol of the table that counts could be read: no symbol is passed over in silence. *)
Theorem C85_complete : forall fuel alloc scns nl nl', Forall (fun x => s_hdr x = true) scns ->
  nlist fuel alloc (Some scns) nl = Ok (0, nl') -> exists s syms, counts scns s /\ readable s syms.
Proof.
  intros fuel alloc scns nl nl' Hh H. unfold nlist in H.
  assert (NF : forall x, failed x = Ok (0, nl') -> False).
  { intros x. unfold failed. destruct (zero_all x); cbn [obind]; try discriminate. }
  destruct (find_table scns None) as [[s|]|] eqn:E; [|destruct (NF _ H)|destruct (NF _ H)].
  apply table_ok in E; [|exact Hh].
  assert (C : counts scns s).
  { destruct E as [E|[E [K|[K _]]]]; [left; exact E|right; auto|discriminate K]. }
  assert (SH : s_hdr s = true).
  { apply (proj1 (Forall_forall _ _) Hh). destruct C as [(a & b & -> & _)|(_ & a & b & -> & _)]; apply in_or_app; right; left; reflexivity. }
  destruct (s_data s) eqn:D; cbn [negb] in H; [|destruct (NF _ H)].
  destruct (fs_init hent fuel alloc (zlen (s_syms s))) as [[t|]| | |]; cbn [obind] in H; try discriminate; [|destruct (NF _ H)].
  destruct (enter_syms t (s_syms s)) as [[t'|]| | |] eqn:EN; cbn [obind] in H; try discriminate; [|destruct (NF _ H)].
  assert (R : forall l t0, enter_syms t0 l = Ok (Some t') -> exists syms, l = map (fun p : bytes * nsym => Some (snd p, Some (fst p))) syms).
  { clear. induction l as [|x l IH]; intros t0 E; [exists []; reflexivity|]. cbn [enter_syms] in E.
    destruct x as [[y [n|]]|]; try discriminate. assert (Q : exists t1, enter_syms t1 l = Ok (Some t')).
    { destruct n as [|b n]; [eauto|]. match type of E with context [hash_name ?w] => destruct (hash_name w) as [h| | |]; cbn [obind] in E; try discriminate end.
      match type of E with context [fs_overwrite ?A ?B ?C ?D ?F] => destruct (fs_overwrite A B C D F) as [[t1 c]| | |]; cbn [obind fst] in E; try discriminate end.
      exists t1. exact E. }
    destruct Q as (t1 & Q). destruct (IH _ Q) as (syms & ->). exists ((n, y) :: syms). reflexivity. }
  destruct (R _ _ EN) as (syms & Y). exists s, syms. split; [exact C|]. split; auto.
Qed.
Print Assumptions C85_complete.
Example C85_complete_nonvacuous : exists nl', nlist 200 (fun _ => true) (Some demo_scns) [req nmain; stop] = Ok (0, nl').
Proof. exists [Nent (Some nmain) 4096 1 2 0 0; stop]. vm_compute. reflexivity. Qed.

(* The full claim is false: fixedsizehash.h uses hash value 0 as the mark of a free slot and elf_hash ("iiiiipp")
   is 0.  nlist reports such a symbol as missing although the symbol table has it. *)
Definition iiiiipp : bytes := [105; 105; 105; 105; 105; 112; 112].
Theorem C85_zero_refuted : exists scns s syms e out,
  Forall (fun x => s_hdr x = true) scns /\ counts scns s /\ readable s syms /\ request e /\ In iiiiipp (map fst syms) /\ e_name e = Some iiiiipp /\
  nlist 20 (fun _ => true) (Some scns) [e; stop] = Ok (0, [out; stop]) /\ ~ entry_for syms e out.
Proof.
  set (syms := [(iiiiipp, Nsym 4096 1 18)]). set (s := Nscn true 2 true (map (fun p => Some (snd p, Some (fst p))) syms)).
  exists [s], s, syms, (req iiiiipp), (Nent (Some iiiiipp) 0 0 0 0 0).
  split; [repeat constructor|]. split; [left; exists [], []; repeat split; constructor|]. split; [repeat split|].
  split; [exists iiiiipp; split; [reflexivity|]; split; [discriminate|]; repeat (apply Forall_cons; [lia|]); apply Forall_nil|].
  split; [left; reflexivity|]. split; [reflexivity|]. split; [vm_compute; reflexivity|].
  intros (n & E & _ & _ & _ & [(y & (a & b & La & _) & V & _)|(N & _)]).
  - cbn in E. injection E as <-. destruct a as [|x [|z a]]; [|discriminate La|discriminate La]. injection La as <- _. cbn in V. discriminate V.
  - cbn in E. injection E as <-. apply N. left. reflexivity.
Qed.
Print Assumptions C85_zero_refuted.

(* Worse, asking for that name, in any file that has a symbol whose hash is a multiple of the table size (here "B",
   hash 66 in 11 slots), makes nlist compare with the null name of a free slot. *)
Theorem C85_crash_refuted : exists scns s syms e,
  Forall (fun x => s_hdr x = true) scns /\ counts scns s /\ readable s syms /\ request e /\ map fst syms = [[66]] /\ e_name e = Some iiiiipp /\
  nlist 20 (fun _ => true) (Some scns) [e; stop] = UB.
Proof.
  set (syms := [([66], Nsym 4096 1 18)]). set (s := Nscn true 2 true (map (fun p => Some (snd p, Some (fst p))) syms)).
  exists [s], s, syms, (req iiiiipp).
  split; [repeat constructor|]. split; [left; exists [], []; repeat split; constructor|]. split; [repeat split|].
  split; [exists iiiiipp; split; [reflexivity|]; split; [discriminate|]; repeat (apply Forall_cons; [lia|]); apply Forall_nil|].
  split; [reflexivity|]. split; [reflexivity|]. vm_compute. reflexivity.
Qed.
Print Assumptions C85_crash_refuted.
