(* C13: section indices are dense and stable. *)
From Verif Require Import Base ScnModel ScnProof.

(* After any sequence of elf_newscn / elf_getscn (elf, 0) calls on a new or an
   opened descriptor (max allocated slots, cnt sections read), the sections are
   numbered 0 .. n-1: *)
Theorem C13_sections_dense :
  forall cnt max ops, (cnt <= max)%nat -> (1 <= max)%nat ->
    Z.of_nat max < 2 ^ 30 -> 2 * zlen ops < 2 ^ 30 ->
    exists st n, scns_run (scns_init cnt max) ops = Ok st /\ Z.of_nat cnt <= n /\
      elf_getshdrnum st = Ok n /\
      (* elf_getscn succeeds exactly below n and returns the section with that index *)
      (forall i, 1 <= i -> i < n ->
         exists p, elf_getscn true st i = Ok (st, Some p) /\ elf_ndxscn st (Some p) = Ok i) /\
      (forall i, 1 <= i -> n <= i -> elf_getscn true st i = Ok (st, None)) /\
      (* distinct indices, distinct sections *)
      (forall i j p, 1 <= i < n -> 1 <= j < n ->
         elf_getscn true st i = Ok (st, Some p) -> elf_getscn true st j = Ok (st, Some p) -> i = j) /\
      (* elf_nextscn enumerates 1 .. n-1 *)
      (forall i p, 1 <= i < n -> elf_getscn true st i = Ok (st, Some p) ->
         exists q, elf_nextscn st (Some p) = Ok q /\ elf_getscn true st (i + 1) = Ok (st, q)) /\
      (1 <= n -> exists q, elf_nextscn st None = Ok q /\ elf_getscn true st 1 = Ok (st, q)).
Proof.
  intros cnt max ops Hc Hm H30 Ho.
  destruct (init_ok cnt max Hc Hm ltac:(lia)) as [I F].
  destruct (run_ok ops _ _ I F ltac:(lia)) as (st & n & E & (I' & F' & L & P) & Hle).
  exists st, n. split; [exact E|]. split; [exact L|].
  assert (G : forall i, 1 <= i -> elf_getscn true st i = Ok (st, ptr_of st i)).
  { intros i Hi. unfold elf_getscn, ptr_of. destruct I' as [(pre & b & s & Eb & _)]. rewrite Eb.
    replace (i =? 0) with false by lia. destruct (pre ++ [b]) eqn:Ep; [destruct pre; discriminate|reflexivity]. }
  split; [apply getshdrnum_ok; auto; lia|].
  split; [|split; [|split; [|split]]].
  - intros i H1 H2. destruct (ptr_in st n i I' ltac:(lia)) as (p & Ep & Sp). exists p.
    rewrite G by lia. rewrite Ep. split; [reflexivity|]. unfold elf_ndxscn. now rewrite Sp.
  - intros i H1 H2. rewrite G by lia. now rewrite (ptr_out st n i I' H2).
  - intros i j p Hi Hj Ei Ej. rewrite G in Ei, Ej by lia. injection Ei as Ei. injection Ej as Ej.
    apply (ptr_inj st n i j p I'); auto; lia.
  - intros i p Hi Ei. rewrite G in Ei by lia. injection Ei as Ei.
    exists (ptr_of st (i + 1)). rewrite G by lia. split; [|reflexivity].
    apply (nextscn_some st n i p I'); auto; lia.
  - intros Hn. exists (ptr_of st 1). rewrite G by lia. split; [|reflexivity].
    apply (nextscn_none st n I' Hn).
Qed.
Print Assumptions C13_sections_dense.

(* A section keeps its place (address) and index whatever is added later, and
   elf_newscn returns the last section, leaving no error. *)
Theorem C13_sections_stable :
  forall cnt max ops ops', (cnt <= max)%nat -> (1 <= max)%nat ->
    Z.of_nat max < 2 ^ 30 -> 2 * zlen ops + 2 * zlen ops' < 2 ^ 30 ->
    exists st st', scns_run (scns_init cnt max) ops = Ok st /\ scns_run st ops' = Ok st' /\
      forall i p, 1 <= i -> elf_getscn true st i = Ok (st, Some p) ->
        elf_getscn true st' i = Ok (st', Some p) /\ elf_ndxscn st' (Some p) = Ok i.
Proof.
  intros cnt max ops ops' Hc Hm H30 Ho.
  pose proof (zlen_nonneg _ ops). pose proof (zlen_nonneg _ ops').
  destruct (init_ok cnt max Hc Hm ltac:(lia)) as [I F].
  destruct (run_ok ops _ _ I F ltac:(lia)) as (st & n & E & (I' & F' & L & P) & Hle).
  destruct (run_ok ops' _ _ I' F' ltac:(lia)) as (st' & n' & E' & (I2 & F2 & L2 & P2) & Hle2).
  exists st, st'. split; [exact E|]. split; [exact E'|].
  assert (G : forall st n, inv st n -> forall i, 1 <= i -> elf_getscn true st i = Ok (st, ptr_of st i)).
  { clear. intros st n I i Hi. unfold elf_getscn, ptr_of. destruct I as [(pre & b & s & Eb & _)]. rewrite Eb.
    replace (i =? 0) with false by lia. destruct (pre ++ [b]) eqn:Ep; [destruct pre; discriminate|reflexivity]. }
  intros i p Hi Ei. rewrite (G _ _ I') in Ei by lia. injection Ei as Ei.
  assert (Hin : i < n). { destruct (Z_lt_ge_dec i n); [assumption|]. rewrite (ptr_out st n i I') in Ei by lia. discriminate. }
  rewrite (G _ _ I2) by lia. rewrite (P2 i) by lia. rewrite Ei. split; [reflexivity|].
  destruct (ptr_in st' n' i I2 ltac:(lia)) as (p' & Ep & Sp). rewrite P2 in Ep by lia.
  assert (p' = p) by congruence. subst. unfold elf_ndxscn. now rewrite Sp.
Qed.
Print Assumptions C13_sections_stable.

Theorem C13_newscn_appends :
  forall cnt max ops, (cnt <= max)%nat -> (1 <= max)%nat ->
    Z.of_nat max < 2 ^ 30 -> 2 * zlen ops < 2 ^ 30 ->
    exists st n st' p, scns_run (scns_init cnt max) ops = Ok st /\ elf_getshdrnum st = Ok n /\
      elf_newscn true true true st = Ok (st', Some p, None) /\
      (* the very first section created brings the zeroth one along *)
      elf_getshdrnum st' = Ok (if n =? 0 then 2 else n + 1) /\
      elf_ndxscn st' (Some p) = Ok (if n =? 0 then 1 else n).
Proof.
  intros cnt max ops Hc Hm H30 Ho. pose proof (zlen_nonneg _ ops).
  destruct (init_ok cnt max Hc Hm ltac:(lia)) as [I F].
  destruct (run_ok ops _ _ I F ltac:(lia)) as (st & n & E & (I' & F' & L & P) & Hle).
  destruct (newscn_ok st n I' F' ltac:(lia)) as (st' & n' & E' & Hn' & (I2 & F2 & L2 & P2)).
  assert (Hn2 : 1 <= n' - 1 /\ n' <= n + 2) by (destruct (Z.eqb_spec n 0); lia).
  destruct (ptr_in st' n' (n' - 1) I2 ltac:(lia)) as (p & Ep & Sp). rewrite Ep in E'.
  exists st, n, st', p. split; [exact E|]. split; [apply getshdrnum_ok; auto; lia|].
  split; [exact E'|]. split; [rewrite <- Hn'; apply getshdrnum_ok; auto; lia|].
  unfold elf_ndxscn. rewrite Sp. cbn [sc_index]. f_equal. destruct (Z.eqb_spec n 0); lia.
Qed.
Print Assumptions C13_newscn_appends.

(* 4 calls on a descriptor opened on a file with 2 sections, block boundary
   crossed *)
Example C13_nonvacuous :
  (st <- scns_run (scns_init 2 2) [true; false; true] ;;
   n <- elf_getshdrnum st ;; ' (_, p) <- elf_getscn true st 3 ;; Ok (n, p))
  = Ok (4, Some (1%nat, 1)).
Proof. vm_compute. reflexivity. Qed.

(* Out of memory.  If the block cannot be allocated NULL is returned and the
   sections are unchanged ... *)
Theorem C13_newscn_no_block_partial :
  forall st pre b shdr0 shdr, ss_blocks st = pre ++ [b] -> sl_cnt b = sl_max b -> 0 < ss_incr st ->
    exists st', elf_newscn false shdr0 shdr st = Ok (st', None, Some ELF_E_NOMEM) /\
      ss_blocks st' = ss_blocks st.
Proof.
  intros st pre b shdr0 shdr E Hf Hi.
  unfold elf_newscn, newscn_slot. rewrite (last_no_snoc st pre b E), E, nth_error_snoc.
  replace (sl_cnt b <? sl_max b) with false by lia. replace (0 <? ss_incr st) with true by lia.
  cbn [negb obind]. eexists. split; reflexivity.
Qed.
Print Assumptions C13_newscn_no_block_partial.

(* ... but every failed call doubles the allocation unit; after 30 failures it
   is 2^31, wraps to 0 and the next success writes outside the new block. *)
Fixpoint fail_newscn (k : nat) (st : scns) : outcome scns :=
  match k with
  | O => Ok st
  | S k => ' (st, _, _) <- elf_newscn false true true st ;; fail_newscn k st
  end.

(* After 30 failed allocations the next success writes outside the new block. *)
Theorem C13_newscn_after_failures_refuted :
  exists st, fail_newscn 30 (scns_init 3 3) = Ok st /\ ss_blocks st = ss_blocks (scns_init 3 3) /\
    elf_newscn true true true st = UB.
Proof.
  exists {| ss_blocks := ss_blocks (scns_init 3 3); ss_incr := 2147483648 |}.
  vm_compute. repeat split.
Qed.
Print Assumptions C13_newscn_after_failures_refuted.

(* If the section header cannot be allocated, a non-NULL section without a
   header is returned. *)
Theorem C13_newscn_no_header_refuted :
  exists st p, elf_newscn true true false (scns_init 2 2) = Ok (st, Some p, Some ELF_E_NOMEM) /\
    option_map sc_ready (scn_at st p) = Some false /\ elf_getshdrnum st = Ok 3 /\
    elf_nextscn st (Some p) = UB.
Proof.
  eexists _, (1%nat, 0). split; [vm_compute; reflexivity|].
  split; [vm_compute; reflexivity|]. split; vm_compute; reflexivity.
Qed.
Print Assumptions C13_newscn_no_header_refuted.

(* A descriptor opened read-only on a file without sections has no slot at
   all (max = 0): adding a section writes out of bounds. *)
Theorem C13_newscn_readonly_empty_refuted :
  elf_newscn true true true (scns_init 0 0) = UB.
Proof. reflexivity. Qed.
Print Assumptions C13_newscn_readonly_empty_refuted.
