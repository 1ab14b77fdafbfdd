(* C93: the threads of a core file, their registers and the words of memory they are unwound with. *)
From Coq Require Import Sorting.Sorted.
From Verif Require Import Base CoreModel CoreSpec CoreProof ThrModel ThrSpec ThrProof.

(* Going through the threads calls the callback once for every thread, in the order of the notes, until it says other than 0, and gives what it said;
   for all callbacks that do not themselves go through the threads, and pids that are more than 0. *)
Theorem C93_threads_partial : forall big notes (A : Type) (cb : Z -> nat -> A -> Z * A) k pos a,
  notes_ok big notes -> (forall t i, In (t, i) (thread_list big notes 0) -> 0 < t) -> (length notes < k)%nat ->
  exists p, getthreads big notes A (plain cb) k (pos, a) = Tret (fst (visit cb (thread_list big notes 0) a)) (p, snd (visit cb (thread_list big notes 0) a)).
Proof. intros big notes A cb k pos a N T K. unfold getthreads. cbn [snd]. exact (loop_threads big notes N A cb notes O k a eq_refl T K). Qed.
Print Assumptions C93_threads_partial.

(* Without an assumption on the pids: the walk ends at the first thread whose pid is not above 0, with success if it is 0 and with failure if it is negative. *)
Theorem C93_ends_partial : forall big notes (A : Type) (cb : Z -> nat -> A -> Z * A) pre t i post k pos a,
  notes_ok big notes -> thread_list big notes 0 = pre ++ (t, i) :: post -> Forall (fun x => 0 < fst x) pre -> t <= 0 -> (length notes < k)%nat ->
  exists p, getthreads big notes A (plain cb) k (pos, a) =
    Tret (if fst (visit cb pre a) =? 0 then (if t <? 0 then -1 else 0) else fst (visit cb pre a)) (p, snd (visit cb pre a)).
Proof.
  intros big notes A cb pre t i post k pos a N L P T K. unfold getthreads. cbn [snd]. exact (loop_ends big notes N A cb t i post T notes O k pre a eq_refl L P K).
Qed.
Print Assumptions C93_ends_partial.

(* One thread: the callback is called once, for the first thread with that pid, and what it says is the result, even 0 or 1; with no such thread the
   callback is not called and the result is -1. *)
Theorem C93_one_partial : forall big notes (A : Type) (cb : Z -> nat -> A -> Z * A) tid k pos a,
  notes_ok big notes -> (forall t i, In (t, i) (thread_list big notes 0) -> 0 < t) -> (length notes < k)%nat ->
  exists p, getthread big notes A (plain cb) tid k (pos, a) =
    match find (fun x => fst x =? tid) (thread_list big notes 0) with
    | Some (t, i) => Tret (fst (cb t i a)) (p, snd (cb t i a))
    | None => Tret (-1) (p, a)
    end.
Proof.
  intros big notes A cb tid k pos a N T K.
  set (one := fun t i (s : A * option Z) => match snd s with None => if t =? tid then let (v, a) := cb t i (fst s) in (1, (a, Some v)) else (0, s) | Some _ => (0, s) end).
  destruct (C93_threads_partial big notes (A * option Z) one k pos (a, None) N T K) as (p & P). exists p.
  unfold one in P at 2 3. rewrite visit_one in P.
  unfold getthread. cbn [fst snd].
  match goal with |- context [getthreads _ _ _ ?f _ _] => set (F := f) end.
  assert (X : forall t i s, F t i s = plain one t i s).
  { unfold F. intros t i (q & b & o). unfold plain, one. cbn [fst snd]. destruct o; [reflexivity|]. destruct (t =? tid); [|reflexivity]. destruct (cb t i b). reflexivity. }
  assert (Y : forall j s, threads_loop big notes (A * option Z) F j s = threads_loop big notes (A * option Z) (plain one) j s).
  { clearbody F. induction j as [|j IH]; intros s; [reflexivity|]. cbn [threads_loop]. destruct (next_thread big notes (fst s)) as [[[t i] q]|]; [|reflexivity].
    destruct (t <? 0); [reflexivity|]. destruct (t =? 0); [reflexivity|]. rewrite X. destruct (plain one t i (q, snd s)) as [v x| |]; try reflexivity.
    destruct v; [apply IH | reflexivity | reflexivity]. }
  unfold getthreads in *. rewrite Y. cbn [snd] in *. rewrite P.
  destruct (find (fun x => fst x =? tid) (thread_list big notes 0)) as [[t i]|]; reflexivity.
Qed.
Print Assumptions C93_one_partial.

Definition note_of (tid : Z) (rest : bytes) : option tnote := Some (Tnote true 1 [Titem true false 0] 4 [Tloc 32 0 2 0 0 false] ([tid; 0; 0; 0] ++ rest)).
Definition other_note : option tnote := Some (Tnote true 3 [Titem true false 0] 0 [] [7; 0; 0; 0; 0; 0; 0; 0]).
Definition notes3 : list (option tnote) := [other_note; note_of 7 [1; 0; 0; 0; 2; 0; 0; 0]; other_note; note_of 8 [3; 0; 0; 0; 4; 0; 0; 0]; None; note_of 9 [0; 0; 0; 0; 0; 0; 0; 0]].
Definition log_cb (t : Z) (i : nat) (a : list Z) : Z * list Z := (0, a ++ [t]).
Example C93_ends_nonvacuous : let notes := [note_of 7 [0; 0; 0; 0]; Some (Tnote true 1 [Titem true false 0] 4 [] [255; 255; 255; 255; 0; 0; 0; 0]); note_of 8 [0; 0; 0; 0]] in
  notes_ok false notes /\ thread_list false notes 0 = [(7, 0%nat)] ++ (-1, 1%nat) :: [(8, 2%nat)] /\ getthreads false notes (list Z) (plain log_cb) 9 (O, []) = Tret (-1) (2%nat, [7]).
Proof.
  cbv zeta. split; [|vm_compute; repeat split].
  intros n H. cbn in H. repeat (destruct H as [H | H]; [injection H as <-; intros i [<- | []]; vm_compute; split; discriminate|]). destruct H.
Qed.
Example C93_threads_nonvacuous : notes_ok false notes3 /\ thread_list false notes3 0 = [(7, 1%nat); (8, 3%nat)] /\
  getthreads false notes3 (list Z) (plain log_cb) 9 (5%nat, []) = Tret 0 (O, [7; 8]) /\
  getthread false notes3 (list Z) (plain (fun t i a => (1, a ++ [t]))) 8 9 (5%nat, []) = Tret 1 (4%nat, [8]) /\
  getthread false notes3 (list Z) (plain log_cb) 9 9 (5%nat, []) = Tret (-1) (O, []).
Proof.
  split; [|vm_compute; repeat split]. intros n H. cbn in H. repeat (destruct H as [H | H]; [injection H as <- || discriminate; intros i [<- | []]; vm_compute; split; discriminate|]). destruct H.
Qed.

(* The pid of the process is that in the first note NT_PRPSINFO that has one; damaged notes before it leave none. *)
Theorem C93_process : forall big before n after, notes_ok big [Some n] ->
  (forall x, In x before -> exists m, x = Some m /\ (t_known m = false \/ t_type m <> 3 \/ find i_pid (t_items m) = None)) ->
  (core_pid big before = Some (-1)) /\ core_pid big (before ++ [None] ++ after) = Some (-1) /\
  forall i, t_known n = true -> t_type n = 3 -> find i_pid (t_items n) = Some i ->
  core_pid big (before ++ [Some n] ++ after) = Some (s32 (at_offset big (t_desc n) (i_off i) 4)).
Proof.
  intros big before n after N. induction before as [|x l IH]; intros H.
  - split; [reflexivity|]. split; [reflexivity|]. intros i K T F. cbn. unfold note_pid. rewrite K, T, F. cbn.
    apply find_some in F. destruct (N n (or_introl eq_refl) i (proj1 F)). unfold num. replace ((0 <=? i_off i) && (i_off i + 4 <=? zlen (t_desc n))) with true by lia. reflexivity.
  - destruct (H x (or_introl eq_refl)) as (m & -> & C). destruct (IH (fun y I => H y (or_intror I))) as (I1 & I2 & I3).
    assert (P : note_pid big NT_PRPSINFO m = None).
    { unfold note_pid, NT_PRPSINFO. destruct C as [-> | [C | ->]]; [reflexivity | | destruct (negb (t_known m)), (negb (t_type m =? 3)); reflexivity].
      replace (t_type m =? 3) with false by lia. destruct (negb (t_known m)); reflexivity. }
    cbn [core_pid app]. rewrite P. auto.
Qed.
Print Assumptions C93_process.
Example C93_process_nonvacuous : core_pid false notes3 = Some 7 /\ core_pid false [note_of 7 []; None; other_note] = Some (-1).
Proof. vm_compute. split; reflexivity. Qed.

(* A thread with pid 0, as for the idle task in a core of a kernel, ends the walk with success: later threads are not seen. *)
Theorem C93_zero_refuted : exists notes, notes_ok false notes /\ thread_list false notes 0 = [(7, 0%nat); (0, 1%nat); (8, 2%nat)] /\
  getthreads false notes (list Z) (plain log_cb) 9 (O, []) = Tret 0 (2%nat, [7]) /\
  getthread false notes (list Z) (plain log_cb) 8 9 (O, []) = Tret (-1) (2%nat, []).
Proof.
  exists [note_of 7 [0; 0; 0; 0]; note_of 0 [0; 0; 0; 0]; note_of 8 [0; 0; 0; 0]]. split; [|vm_compute; repeat split].
  intros n H. cbn in H. repeat (destruct H as [H | H]; [injection H as <-; intros i [<- | []]; vm_compute; split; discriminate|]). destruct H.
Qed.
Print Assumptions C93_zero_refuted.

(* The place in the notes belongs to the process, not to the walk.  A callback that looks at one thread, here at the first, moves it: with three threads,
   the walk comes back to the second for ever, however often it goes on, and the third is never seen. *)
Definition nested_cb (notes : list (option tnote)) (t : Z) (i : nat) (s : nat * list Z) : tout (nat * list Z) :=
  match getthread false notes (list Z) (plain (fun _ _ a => (0, a))) 7 9 s with
  | Tret _ (p, a) => Tret 0 (p, a ++ [t])
  | r => r
  end.
Theorem C93_nested_refuted : exists notes, notes_ok false notes /\ thread_list false notes 0 = [(7, 0%nat); (8, 1%nat); (9, 2%nat)] /\
  (forall k, getthreads false notes (list Z) (nested_cb notes) k (O, []) = Tfuel) /\
  (forall k a, ~ In 9 a -> threads_loop false notes (list Z) (nested_cb notes) (S k) (1%nat, a) = threads_loop false notes (list Z) (nested_cb notes) k (1%nat, a ++ [8])).
Proof.
  set (notes := [note_of 7 [0; 0; 0; 0]; note_of 8 [0; 0; 0; 0]; note_of 9 [0; 0; 0; 0]]). exists notes. split.
  { intros n H. cbn in H. repeat (destruct H as [H | H]; [injection H as <-; intros i [<- | []]; vm_compute; split; discriminate|]). destruct H. }
  split; [reflexivity|].
  assert (S1 : forall k a, threads_loop false notes (list Z) (nested_cb notes) (S k) (1%nat, a) = threads_loop false notes (list Z) (nested_cb notes) k (1%nat, a ++ [8])) by (intros; reflexivity).
  split; [|intros k a _; apply S1].
  assert (L : forall k a, threads_loop false notes (list Z) (nested_cb notes) k (1%nat, a) = Tfuel) by (induction k as [|k IH]; intros a; [reflexivity | rewrite S1; apply IH]).
  intros [|k]; [reflexivity|]. exact (L k [7]).
Qed.
Print Assumptions C93_nested_refuted.

(* The registers of a thread.  Every register of a location gets the number at its place in the note, others stay unset, and the pc is that of the item that
   is the pc; for notes that are long enough and locations that do not set a register twice. *)
Theorem C93_registers_partial : forall big nregs class32 n,
  (forall l, In l (t_locs n) -> 0 <= l_count l) -> apart nregs (t_locs n) ->
  (forall l, In l (t_locs n) -> usable l ->
     0 <= l_pad l /\ 0 <= t_regoff n + l_off l /\ place (t_regoff n) l (l_regno l + regs_in l - 1) + l_bits l / 8 <= zlen (t_desc n)) -> whole n ->
  exists s, initial_registers big nregs class32 n = Some s /\
  (forall l r, In l (t_locs n) -> r < nregs -> covers l r -> reg_of s r = Some (at_offset big (t_desc n) (place (t_regoff n) l r) (l_bits l / 8))) /\
  (forall r, (r < nregs -> forall l, In l (t_locs n) -> ~ covers l r) -> reg_of s r = None) /\
  ((forall l, In l (t_locs n) -> l_pc l = false) ->
     r_pc s = match find i_pc (t_items n) with Some i => Some (at_offset big (t_desc n) (i_off i) (if class32 then 4 else 8)) | None => None end).
Proof.
  intros big nregs class32 n C Ap B W.
  assert (X : exists pc, initial_registers big nregs class32 n = all_locs big nregs (t_locs n) (t_regoff n) (t_desc n) (Rst [] pc) /\
     pc = match find i_pc (t_items n) with Some i => Some (at_offset big (t_desc n) (i_off i) (if class32 then 4 else 8)) | None => None end).
  { unfold initial_registers. destruct (find i_pc (t_items n)) as [i|] eqn:F; [|exists None; split; reflexivity].
    apply find_some in F. destruct (W i (proj1 F)) as (W1 & W2). unfold num at 1.
    replace ((0 <=? i_off i) && (i_off i + (if class32 then 4 else 8) <=? zlen (t_desc n))) with true by (destruct class32; lia). eexists. split; reflexivity. }
  destruct X as (pc & -> & Epc).
  destruct (all_locs_some big nregs (t_regoff n) (t_desc n) (t_locs n) (Rst [] pc)) as (s & E).
  { intros l I U. destruct (B l I U) as (B1 & B2 & B3). auto. }
  exists s. split; [exact E|].
  destruct (all_locs_ok big nregs (t_regoff n) (t_desc n) (t_locs n) (Rst [] pc) s C Ap (fun _ _ _ _ _ => eq_refl) E) as (E1 & E2 & E3). split; [|split].
  - intros l r I Hr Cv. destruct (E1 l r I Hr Cv) as (F1 & F2). rewrite F1 in *. unfold num, at_offset in *.
    destruct ((0 <=? place (t_regoff n) l r) && (place (t_regoff n) l r + l_bits l / 8 <=? zlen (t_desc n))); [reflexivity | congruence].
  - intros r H. rewrite (E2 r H). reflexivity.
  - intros H. rewrite (E3 H). exact Epc.
Qed.
Print Assumptions C93_registers_partial.
Definition regs_note : tnote := Tnote true 1 [Titem true false 0; Titem false true 4] 4 [Tloc 32 0 2 0 4 false; Tloc 16 2 1 0 0 false; Tloc 64 3 0 12 0 false]
  [7; 0; 0; 0; 1; 0; 0; 0; 255; 255; 255; 255; 2; 1; 0; 0; 9; 0; 0; 0; 0; 0; 0; 1].
Example C93_registers_nonvacuous :
  (forall l, In l (t_locs regs_note) -> 0 <= l_count l) /\ apart 4 (t_locs regs_note) /\ whole regs_note /\
  (forall l, In l (t_locs regs_note) -> usable l ->
     0 <= l_pad l /\ 0 <= t_regoff regs_note + l_off l /\ place (t_regoff regs_note) l (l_regno l + regs_in l - 1) + l_bits l / 8 <= zlen (t_desc regs_note)) /\
  option_map (fun s => (map (reg_of s) [0; 1; 2; 3], r_pc s)) (initial_registers false 4 true regs_note) = Some ([Some 1; Some 258; None; Some (9 + 2 ^ 56)], Some 1).
Proof.
  split; [intros l H; cbn in H; decompose [or] H; subst; cbn; try lia; contradiction|].
  split.
  { repeat first [apply SSorted_nil | apply SSorted_cons]; repeat first [apply Forall_nil | apply Forall_cons]; unfold covers, regs_in, usable; cbn; intros r Hr; lia. }
  split; [intros i H; cbn in H; decompose [or] H; subst; vm_compute; try (split; discriminate); contradiction|].
  split; [intros l H _; cbn in H; decompose [or] H; subst; vm_compute; try (repeat split; discriminate); contradiction|]. vm_compute. reflexivity.
Qed.

(* A location of several registers, of which the first is set already: it is left alone, but its place in the note is not passed over.  The
   next register gets the number that belongs to the first. *)
Theorem C93_registers_refuted : exists n l, In l (t_locs n) /\ covers l 1 /\ (forall m, In m (t_locs n) -> covers m 1 -> m = l) /\
  at_offset false (t_desc n) (place (t_regoff n) l 1) 4 = 6 /\ exists s, initial_registers false 2 true n = Some s /\ reg_of s 1 = Some 5.
Proof.
  exists (Tnote true 1 [Titem true false 0] 4 [Tloc 32 0 1 0 0 false; Tloc 32 0 2 4 0 false] [7; 0; 0; 0; 4; 0; 0; 0; 5; 0; 0; 0; 6; 0; 0; 0]), (Tloc 32 0 2 4 0 false).
  split; [right; left; reflexivity|]. split; [split; [left; reflexivity | cbn; lia]|].
  split; [intros m [<- | [<- | []]] (_ & H); [cbn in H; lia | reflexivity]|]. split; [reflexivity|]. eexists. split; reflexivity.
Qed.
Print Assumptions C93_registers_refuted.

(* A word of memory that is in the dumped part of one segment is read, byte for byte as the core holds it. *)
Theorem C93_word_partial : forall big align phdrs file w a p, 0 < align -> Forall (good_ph align) phdrs -> in_order phdrs -> In p phdrs -> c_load p = true -> 0 < w ->
  c_vaddr p <= a -> a + w <= c_vaddr p + c_filesz p -> c_off p + c_filesz p <= zlen file ->
  exists b, zlen b = w /\ word_at big align phdrs file w a = Some ((if big then be_value else le_value) b) /\ forall k x, 0 <= k -> znth b k = Some x -> holds phdrs file (a + k) x.
Proof.
  intros big align phdrs file w a p Ha G O I L W V1 V2 Z. assert (Gp : good_ph align p) by (rewrite Forall_forall in G; exact (G p I)).
  destruct (Gp L) as (p1 & p2 & p3 & _). exists (zsub file (c_off p + (a - c_vaddr p)) w). split; [rewrite zlen_zsub by lia; lia|]. split.
  - rewrite (word_at_ok big align Ha file phdrs a w p) by (assumption || lia). unfold num.
    replace ((0 <=? c_off p + (a - c_vaddr p)) && (c_off p + (a - c_vaddr p) + w <=? zlen file)) with true by lia. reflexivity.
  - intros k x K X. apply zn_zsub in X; [|lia|lia]. destruct X as (X1 & X2). exists p. split; [exact I|]. split; [exact L|]. split; [lia|].
    rewrite <- X2. f_equal. lia.
Qed.
Print Assumptions C93_word_partial.

(* A word that is not within one segment is refused. *)
Theorem C93_word_none : forall big align phdrs file w a, 0 < align -> Forall (good_ph align) phdrs -> 0 <= a -> 0 < w -> a + w < 2 ^ 64 ->
  (forall p, In p phdrs -> c_load p = true -> a < c_vaddr p \/ c_vaddr p + c_memsz p < a + w) -> word_at big align phdrs file w a = None.
Proof. intros. apply word_at_none; assumption. Qed.
Print Assumptions C93_word_none.

Definition two_segs : list cph := [Cph true 8 16 8 8; Cph false 0 0 0 0; Cph true 16 24 8 16; Cph true 24 64 8 8].
Definition two_file : bytes := [0; 0; 0; 0; 0; 0; 0; 0; 1; 2; 3; 4; 5; 6; 7; 8; 9; 10; 11; 12; 13; 14; 15; 16; 17; 18; 19; 20; 21; 22; 23; 24].
Lemma two_good : Forall (good_ph 8) two_segs /\ in_order two_segs.
Proof.
  split; [repeat first [apply Forall_nil | apply Forall_cons]; intros _; vm_compute; repeat split; discriminate|].
  repeat first [apply SSorted_nil | apply SSorted_cons]; repeat first [apply Forall_nil | apply Forall_cons]; intros H H'; (discriminate || (vm_compute; split; discriminate)).
Qed.
Example C93_word_nonvacuous : Forall (good_ph 8) two_segs /\ in_order two_segs /\
  word_at false 8 two_segs two_file 4 28 = Some (le_value [13; 14; 15; 16]) /\ word_at true 8 two_segs two_file 4 17 = Some (be_value [2; 3; 4; 5]) /\
  word_at false 8 two_segs two_file 4 50 = None.
Proof. split; [exact (proj1 two_good)|]. split; [exact (proj2 two_good)|]. vm_compute. repeat split. Qed.

(* Memory that is in a segment but not in the core, as pages that are left out: the word is what stands in the file after the segment, bytes of
   another segment, and no byte of it is held at its address. *)
Theorem C93_word_refuted : exists phdrs file a v, Forall (good_ph 8) phdrs /\ in_order phdrs /\ word_at false 8 phdrs file 4 a = Some v /\
  forall k x, 0 <= k < 4 -> ~ holds phdrs file (a + k) x.
Proof.
  exists two_segs, two_file, 32, (le_value [17; 18; 19; 20]). split; [exact (proj1 two_good)|]. split; [exact (proj2 two_good)|]. split; [vm_compute; reflexivity|].
  intros k x K (p & I & L & V & _). cbn in I. decompose [or] I; subst; cbn [c_vaddr c_filesz] in V; try lia; contradiction.
Qed.
Print Assumptions C93_word_refuted.

(* A word across two segments that follow each other is not read, although the core holds every byte of it. *)
Theorem C93_across_refuted : exists phdrs file a, Forall (good_ph 8) phdrs /\ in_order phdrs /\
  (forall k, 0 <= k < 4 -> exists x, holds phdrs file (a + k) x) /\ word_at false 8 phdrs file 4 a = None.
Proof.
  exists two_segs, two_file, 22. split; [exact (proj1 two_good)|]. split; [exact (proj2 two_good)|]. split; [|vm_compute; reflexivity].
  intros k K. assert (k = 0 \/ k = 1 \/ k = 2 \/ k = 3) as [-> | [-> | [-> | ->]]] by lia.
  - exists 7, (Cph true 8 16 8 8). cbn. repeat split; auto; lia.
  - exists 8, (Cph true 8 16 8 8). cbn. repeat split; auto; lia.
  - exists 9, (Cph true 16 24 8 16). cbn. repeat split; auto; lia.
  - exists 10, (Cph true 16 24 8 16). cbn. repeat split; auto; lia.
Qed.
Print Assumptions C93_across_refuted.
