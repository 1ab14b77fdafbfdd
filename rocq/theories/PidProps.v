(* C94: a live process that is attached to. *)
From Verif Require Import Base PidModel PidSpec PidProof.

(* A process of 64 bits.  In every history of reads, with the process running between attachments, each read gives the word that is in memory at that
   time, byte for byte, and fails exactly if it cannot be read; with and without process_vm_readv. *)
Theorem C94_memory64 : forall big vm ops mem,
  right (fun mem a r => match r with Some v => exists b, zlen b = 8 /\ bytes_at mem a b /\ v = word big b | None => ~ readable mem a 8 end) ops mem (run big vm false ops mem None).
Proof.
  intros big vm ops mem. apply (right_run big vm false (fun _ => True)); [|exact I | induction ops as [|[a|m] r IH]; cbn; auto | exact I].
  clear. intros mem c a v c' _ C H. unfold memory_read in H.
  assert (X : exists o c1, (if vm then read_cached big mem c a else (None, c)) = (o, c1) /\ cache_ok mem c1 /\ match o with Some v => exists b, zlen b = 8 /\ bytes_at mem a b /\ v = word big b | None => True end).
  { destruct vm; [|exists None, c; auto]. destruct (read_cached big mem c a) as [o c1] eqn:E. destruct (cached_ok big mem c a o c1 C E) as (C1 & V).
    exists o, c1. split; [reflexivity|]. split; [exact C1|]. destruct o; [exact V | exact I]. }
  destruct X as (o & c1 & E & C1 & V). rewrite E in H. destruct o as [x|].
  - injection H as <- <-. split; [exact C1 | exact V].
  - destruct (fetch mem a 8) as [b|] eqn:F; injection H as <- <-; (split; [exact C1|]).
    + apply fetch_some in F. destruct F as (F1 & F2). exists b. auto.
    + intros R. apply fetch_none in F. destruct F as (k & K & Mk). exact (R k K Mk).
Qed.
Print Assumptions C94_memory64.

(* A process of 32 bits, without process_vm_readv: each read gives the word of 4 bytes; an aligned one fails only if it cannot be read. *)
Definition good32 (big : bool) (mem : pmem) (a : Z) (r : option Z) : Prop :=
  match r with
  | Some v => exists b, zlen b = 4 /\ bytes_at mem a b /\ v = word big b
  | None => a mod 4 = 0 -> ~ readable mem a 4
  end.
Definition sane_mem (mem : pmem) : Prop := byte_mem mem /\ by_pages mem.

Lemma peek32 : forall (big : bool) mem a, sane_mem mem ->
  good32 big mem a (match fetch mem (if (a / 4) mod 2 =? 1 then a - 4 else a) 8 with
    | None => None
    | Some b => Some ((if (if big then negb ((a / 4) mod 2 =? 1) else (a / 4) mod 2 =? 1) then word big b / 2 ^ 32 else word big b) mod 2 ^ 32) end).
Proof.
  intros big mem a (Mb & Mp). set (lo := (a / 4) mod 2 =? 1). set (a' := if lo then a - 4 else a).
  destruct (fetch mem a' 8) as [b|] eqn:F.
  - apply fetch_some in F. destruct F as (F1 & F2). destruct (app_at mem a' b F1 F2) as (b1 & b2 & -> & L1 & L2 & B1 & B2).
    destruct (half big b1 b2 (at_bytes _ _ _ Mb B1) (at_bytes _ _ _ Mb B2) L1 L2) as (H1 & H2). cbn [good32]. unfold a' in *. destruct lo.
    + exists b2. split; [exact L2|]. split; [replace (a - 4 + 4) with a in B2 by lia; exact B2|]. destruct big; exact H2.
    + exists b1. split; [exact L1|]. split; [exact B1|]. destruct big; exact H1.
  - intros A R. apply fetch_none in F. destruct F as (k & K & Mk). apply (R 0 ltac:(lia)). rewrite Z.add_0_r.
    assert (P : (a' + k) - (a' + k) mod 4096 = a - a mod 4096).
    { unfold a', lo. pose proof (Z.mod_pos_bound (a / 4) 2 eq_refl). destruct (Z.eqb_spec ((a / 4) mod 2) 1); change (Z.of_nat 8) with 8 in K; Z.div_mod_to_equations; lia. }
    apply (proj2 (Mp a)). rewrite <- P. exact (proj1 (Mp (a' + k)) Mk).
Qed.
Theorem C94_memory32 : forall big ops mem, sane_mem mem -> all_mem sane_mem ops -> right (good32 big) ops mem (run big false true ops mem None).
Proof.
  intros big ops mem Sm Sa. apply (right_run big false true sane_mem); [|exact Sm | exact Sa | exact I].
  clear. intros mem c a v c' Sm C H. unfold memory_read in H. pose proof (peek32 big mem a Sm) as P.
  destruct (fetch mem (if (a / 4) mod 2 =? 1 then a - 4 else a) 8) as [b|]; injection H as <- <-; (split; [exact C | exact P]).
Qed.
Print Assumptions C94_memory32.

(* With process_vm_readv the same is true only of the low half of what a read gives, and only where bytes are in order of rising significance. *)
Theorem C94_memory32_partial : forall ops mem, sane_mem mem -> all_mem sane_mem ops ->
  right (fun mem a r => good32 false mem a (match r with Some v => Some (v mod 2 ^ 32) | None => None end)) ops mem (run false true true ops mem None).
Proof.
  intros ops mem Sm Sa. apply (right_run false true true sane_mem); [|exact Sm | exact Sa | exact I].
  clear. intros mem c a v c' Sm C H. unfold memory_read in H. destruct (read_cached false mem c a) as [o c1] eqn:E.
  destruct (cached_ok false mem c a o c1 C E) as (C1 & V). destruct o as [x|].
  - injection H as <- <-. split; [exact C1|]. destruct V as (b & L & B & ->). destruct (app_at mem a b L B) as (b1 & b2 & -> & L1 & L2 & B1 & B2).
    destruct (half false b1 b2 (at_bytes _ _ _ (proj1 Sm) B1) (at_bytes _ _ _ (proj1 Sm) B2) L1 L2) as (H1 & _). exists b1. auto.
  - pose proof (peek32 false mem a Sm) as P. destruct (fetch mem (if (a / 4) mod 2 =? 1 then a - 4 else a) 8) as [b|]; injection H as <- <-; (split; [exact C1|]).
    + rewrite Zmod_mod. exact P.
    + exact P.
Qed.
Print Assumptions C94_memory32_partial.

Definition one_page : pmem := fun a => if (0 <=? a) && (a <? 4096) then Some (a mod 251) else None.
Definition later : pmem := fun a => if (0 <=? a) && (a <? 4096) then Some 9 else None.
Lemma pages_sane : sane_mem one_page /\ sane_mem later.
Proof.
  assert (X : forall a, (0 <=? a) && (a <? 4096) = (0 <=? a - a mod 4096) && (a - a mod 4096 <? 4096)) by (intros a; Z.div_mod_to_equations; lia).
  split; (split; [intros a x; unfold one_page, later; destruct ((0 <=? a) && (a <? 4096)); [|discriminate]; intros H; injection H as <-; try (pose proof (Z.mod_pos_bound a 251 eq_refl)); lia |
    intros a; unfold one_page, later; rewrite <- X; destruct ((0 <=? a) && (a <? 4096)); split; (discriminate || reflexivity)]).
Qed.
Example C94_memory_nonvacuous : sane_mem one_page /\ all_mem sane_mem [Rd 8; Turn later; Rd 8] /\
  run false true false [Rd 8; Rd 4090; Rd 4088; Turn later; Rd 8] one_page None =
    [Some (le_value [8; 9; 10; 11; 12; 13; 14; 15]); None; Some (le_value [72; 73; 74; 75; 76; 77; 78; 79]); Some (le_value [9; 9; 9; 9; 9; 9; 9; 9])] /\
  run true false true [Rd 8; Rd 4092; Rd 4096] one_page None = [Some (be_value [8; 9; 10; 11]); Some (be_value [76; 77; 78; 79]); None].
Proof. split; [exact (proj1 pages_sane)|]. split; [exact (conj (proj2 pages_sane) I)|]. vm_compute. repeat split. Qed.

(* A process of 32 bits with process_vm_readv: a word is given with the next one in its high half; and on a host where the first byte is the most
   significant, its low half is the next word. *)
Theorem C94_memory32_refuted : sane_mem one_page /\ bytes_at one_page 8 [8; 9; 10; 11] /\
  run false true true [Rd 8] one_page None = [Some (le_value [8; 9; 10; 11] + 2 ^ 32 * le_value [12; 13; 14; 15])] /\
  run true true true [Rd 8] one_page None = [Some (be_value [12; 13; 14; 15] + 2 ^ 32 * be_value [8; 9; 10; 11])].
Proof.
  split; [exact (proj1 pages_sane)|]. split; [|vm_compute; repeat split].
  intros k K. change (zlen [8; 9; 10; 11]) with 4 in K. assert (k = 0 \/ k = 1 \/ k = 2 \/ k = 3) as [-> | [-> | [-> | ->]]] by lia; reflexivity.
Qed.
Print Assumptions C94_memory32_refuted.

(* Attaching.  When it succeeds the thread is traced, it was stopped by SIGSTOP, and the signals that came before have each been given to it, in order; when it
   fails the thread is not traced, if it ever was, and nothing else was asked of the kernel than to attach, if that failed. *)
Theorem C94_attach : forall ok stopped evs r t, ptrace_attach ok stopped evs = (r, t) ->
  match r with
  | Pret true => ok = true /\ traced false t = true /\
      exists sigs rest b, evs = map (fun s => (Wstop s, true)) sigs ++ (Wstop 19, b) :: rest /\ ~ In 19 sigs /\ given t = filter (fun s => negb (s =? 0)) sigs
  | Pret false => ok = false /\ t = [PAttach] \/ ok = true /\ traced false t = false
  | Pwaits => ok = true /\ traced false t = true /\ exists sigs, evs = map (fun s => (Wstop s, true)) sigs /\ ~ In 19 sigs
  end.
Proof.
  intros ok stopped evs r t H. unfold ptrace_attach in H. destruct ok; cbn [negb] in H; [|injection H as <- <-; left; split; reflexivity].
  destruct (attach_loop evs) as [v u] eqn:E. injection H as <- <-.
  assert (L : match v with
    | Pret true => traced true u = true /\ exists sigs rest b, evs = map (fun s => (Wstop s, true)) sigs ++ (Wstop 19, b) :: rest /\ ~ In 19 sigs /\ given u = filter (fun s => negb (s =? 0)) sigs
    | Pret false => traced true u = false
    | Pwaits => traced true u = true /\ exists sigs, evs = map (fun s => (Wstop s, true)) sigs /\ ~ In 19 sigs end).
  { revert v u E. induction evs as [|[[s|] b] evs IH]; intros v u E; cbn [attach_loop] in E.
    - injection E as <- <-. split; [reflexivity|]. exists []. split; [reflexivity | intros []].
    - unfold SIGSTOP in E. destruct (Z.eqb_spec s 19) as [-> | Ns].
      + injection E as <- <-. split; [reflexivity|]. exists [], evs, b. split; [reflexivity|]. split; [intros [] | reflexivity].
      + destruct b; [|injection E as <- <-; reflexivity]. destruct (attach_loop evs) as [v' u']. injection E as <- <-. specialize (IH v' u' eq_refl).
        destruct v' as [[|]|]; [|exact IH |].
        * destruct IH as (I1 & sigs & rest & b & -> & I2 & I3). split; [exact I1|]. exists (s :: sigs), rest, b. split; [reflexivity|].
          split; [intros [X | X]; [congruence | exact (I2 X)]|]. cbn [given filter]. destruct (s =? 0); cbn [negb]; rewrite I3; reflexivity.
        * destruct IH as (I1 & sigs & -> & I2). split; [exact I1|]. exists (s :: sigs). split; [reflexivity | intros [X | X]; [congruence | exact (I2 X)]].
    - injection E as <- <-. reflexivity. }
  assert (T : traced false (PAttach :: (if stopped then [PKill; PCont 0] else []) ++ u) = traced true u) by (destruct stopped; reflexivity).
  assert (G : given (PAttach :: (if stopped then [PKill; PCont 0] else []) ++ u) = given u) by (destruct stopped; reflexivity).
  destruct v as [[|]|]; rewrite ?T, ?G; auto.
Qed.
Print Assumptions C94_attach.
Example C94_attach_nonvacuous : ptrace_attach true true [(Wstop 10, true); (Wstop 19, false)] = (Pret true, [PAttach; PKill; PCont 0; PCont 10]) /\
  ptrace_attach true false [(Wstop 10, true); (Wother, true)] = (Pret false, [PAttach; PCont 10; PDetach 0]).
Proof. split; reflexivity. Qed.

Lemma traced_end : forall x u b, traced b (u ++ [PDetach x]) = false.
Proof. intros x u. induction u as [|[] u IHu]; intros b; cbn; auto. Qed.
Fixpoint all_frames (assume : bool) (s : sess) (l : list frames_in) : list (fres * list ptr) * sess :=
  match l with
  | [] => ([], s)
  | f :: r => let '(v, s, t) := frames assume s f in let (out, s) := all_frames assume s r in ((v, t) :: out, s)
  end.
(* The frames of threads, one after another.  If registers can be had of every thread that can be attached, no thread is left attached, no check of the
   library fails, and a thread that was stopped stays stopped; and if the caller has stopped the threads, the kernel is asked nothing. *)
Theorem C94_frames_partial : forall assume s l out s', s_tid s = 0 -> Forall (fun f => f_regs f = true) l -> all_frames assume s l = (out, s') ->
  s_tid s' = 0 /\ length out = length l /\
  Forall2 (fun f o => fst o <> Fassert /\ (assume = true -> o = (Fwalked, [])) /\
    (fst o = Fwalked -> assume = false -> traced false (snd o) = false /\ exists t, snd o = t ++ [PDetach (if f_stopped f then 19 else 0)]) /\
    (fst o = Ffail -> f_ok f = true -> traced false (snd o) = false)) l out.
Proof.
  intros assume s l. revert s. induction l as [|f l IH]; intros s out s' S R H; cbn [all_frames] in H.
  - injection H as <- <-. split; [exact S|]. split; [reflexivity | constructor].
  - pose proof (Forall_inv R) as Rf. apply Forall_inv_tail in R. destruct (frames assume s f) as [[v s1] t] eqn:F.
    destruct (all_frames assume s1 l) as [o1 s2] eqn:A. injection H as <- <-.
    assert (X : s_tid s1 = 0 /\ v <> Fassert /\ (assume = true -> (v, t) = (Fwalked, [])) /\
      (v = Fwalked -> assume = false -> traced false t = false /\ exists u, t = u ++ [PDetach (if f_stopped f then 19 else 0)]) /\ (v = Ffail -> f_ok f = true -> traced false t = false)).
    { unfold frames in F. rewrite S, Rf in F. cbn [Z.eqb negb] in F. destruct assume.
      - injection F as <- <- <-. split; [reflexivity|]. split; [discriminate|]. split; [reflexivity|]. split; [discriminate | discriminate].
      - destruct (ptrace_attach (f_ok f) (f_stopped f) (f_evs f)) as [r u] eqn:P. pose proof (C94_attach _ _ _ _ _ P) as Q. destruct r as [[|]|].
        + destruct Q as (Q1 & Q2 & _). rewrite Q1 in F. injection F as <- <- <-. split; [reflexivity|]. split; [discriminate|]. split; [discriminate|]. split; [|discriminate].
          intros _ _. split; [|exists u; reflexivity]. apply traced_end.
        + injection F as <- <- <-. split; [reflexivity|]. split; [discriminate|]. split; [discriminate|]. split; [discriminate|]. intros _ O.
          destruct Q as [(Q & _) | (_ & Q)]; [congruence | exact Q].
        + injection F as <- <- <-. split; [reflexivity|]. split; [discriminate|]. split; [discriminate|]. split; discriminate. }
    destruct X as (X1 & X2). destruct (IH s1 o1 s2 X1 R A) as (I1 & I2 & I3). split; [exact I1|]. split; [cbn; congruence|]. constructor; [exact X2 | exact I3].
Qed.
Print Assumptions C94_frames_partial.
Definition thread_in (t : Z) (regs : bool) : frames_in := Fin t true false [(Wstop 19, true)] regs.
Example C94_frames_nonvacuous : all_frames false (Sess 0 false) [thread_in 5 true; Fin 6 false false [] true; Fin 7 true true [(Wstop 19, true)] true] =
  ([(Fwalked, [PAttach; PDetach 0]); (Ffail, [PAttach]); (Fwalked, [PAttach; PKill; PCont 0; PDetach 19])], Sess 0 true).
Proof. reflexivity. Qed.

(* If the registers of a thread cannot be had after it was attached, nothing detaches it: it stays stopped under trace, and asking for the frames of any
   thread after that ends the program with a failed check. *)
Theorem C94_frames_refuted : exists f, f_tid f = 5 /\ forall g, exists s, all_frames false (Sess 0 false) [f; g] = ([(Ffail, [PAttach]); (Fassert, [])], s) /\ s_tid s = 5 /\ traced false [PAttach] = true.
Proof. exists (thread_in 5 false). split; [reflexivity|]. intros g. exists (Sess 5 false). split; [reflexivity|]. split; reflexivity. Qed.
Print Assumptions C94_frames_refuted.
