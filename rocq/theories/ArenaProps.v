(* C96: memory that a Dwarf handle gives out for what it reads. *)
From Coq Require Import Sorting.Sorted.
From Verif Require Import Base ArenaModel ArenaSpec ArenaProof.

(* For every history of requests whose sizes do not wrap, and every malloc that keeps to its contract: what is given out is aligned, has the size asked for, is within
   memory that malloc gave or that of the handle, and no two pieces overlap. *)
Theorem C96_memory_partial : forall def at_ qs out e, 24 <= def -> 0 < at_ -> at_ + def <= 2 ^ 64 -> Forall fair qs ->
  malloc_ok def (first_block def at_) [(at_, def)] qs -> run def (first_block def at_) qs = (out, e) ->
  e <> Aub /\ StronglySorted apart out /\ (forall x, In x out -> inside_one (gotten def (first_block def at_) [(at_, def)] qs) x) /\
  (forall k q x, nth_error qs k = Some q -> nth_error out k = Some x -> fst x mod q_align q = 0 /\ snd x = q_size q * q_cnt q).
Proof.
  intros def at_ qs out e D A B F M R.
  assert (I : inv (first_block def at_) [(at_, def)] []).
  { split; [apply Forall_cons; [unfold blk_ok, HDR; cbn; unfold HDR; lia | apply Forall_nil]|]. split; [unfold first_block, piece; cbn; do 2 f_equal; unfold HDR; lia|].
    split; [apply SSorted_cons; [apply SSorted_nil | apply Forall_nil] | intros x []]. }
  destruct (run_ok def qs (first_block def at_) [(at_, def)] [] out e D ltac:(discriminate) I F M R) as (J1 & J2 & _ & J4 & J5). auto.
Qed.
Print Assumptions C96_memory_partial.

(* A request is answered unless malloc has nothing, and malloc is only asked if the piece does not fit in the last block. *)
Theorem C96_served_partial : forall def b r q, fair q -> blk_ok b ->
  ((b_at b + (b_size b - b_rem b)) mod q_align q = 0 -> q_size q * q_cnt q <= b_rem b ->
     alloc def (b :: r) (q_size q) (q_cnt q) (q_align q) (q_malloc q) = Aok (b_at b + (b_size b - b_rem b)) (Blk (b_at b) (b_size b) (b_rem b - q_size q * q_cnt q) :: r)) /\
  (q_malloc q <> None -> exists a l, alloc def (b :: r) (q_size q) (q_cnt q) (q_align q) (q_malloc q) = Aok a l).
Proof.
  intros def b r q (F1 & F2 & F3) (B1 & B2 & B3). unfold alloc, needs_block. replace (u64 (q_size q * q_cnt q)) with (q_size q * q_cnt q) by (symmetry; apply Z.mod_small; lia). split.
  - intros A L. rewrite A, Z.sub_0_r, Z_mod_same_full, !Z.add_0_r. unfold u64. rewrite Z.mod_small by lia.
    replace (b_rem b <? q_size q * q_cnt q) with false by lia. reflexivity.
  - intros M. destruct (_ <? _); [destruct (q_malloc q); [eexists; eexists; reflexivity | congruence] | eexists; eexists; reflexivity].
Qed.
Print Assumptions C96_served_partial.

Definition hist : list areq := [Areq 8 3 8 None; Areq 1 5 1 None; Areq 8 1 8 None; Areq 16 10 16 (Some 10000); Areq 1 1 1 None; Areq 4 2 4 (Some 20000)].
Example C96_nonvacuous : Forall fair hist /\ malloc_ok 100 (first_block 100 1000) [(1000, 100)] hist /\
  fst (run 100 (first_block 100 1000) hist) = [(1024, 24); (1048, 5); (1056, 8); (10032, 160); (10192, 1); (10196, 8)].
Proof.
  split; [repeat first [apply Forall_nil | apply Forall_cons]; vm_compute; repeat split; discriminate|]. split; [|vm_compute; reflexivity].
  cbn. split; [reflexivity|]. split; [discriminate|]. split; [|exact I]. intros x [<- | []]. right. vm_compute. discriminate.
Qed.

(* Sizes that wrap.  A number of items times their size that is 2^64 gives a piece of no bytes; and a request of 2^63 bytes asks malloc for a block of the default size, and
   gives a piece that is not inside of it.  Both without an error. *)
Theorem C96_wrap_refuted : forall def at_, def = 4064 -> at_ = 4096 ->
  (exists q out l, q_size q * q_cnt q = 2 ^ 64 /\ run def (first_block def at_) [q] = (out, Aok 0 l) /\ ~ inside_one [(at_, def)] (at_ + HDR, q_size q * q_cnt q) /\ out = [(at_ + HDR, 2 ^ 64)]) /\
  (exists q p out l, q_size q * q_cnt q = 2 ^ 63 /\ q_malloc q = Some p /\ malloc_ok def (first_block def at_) [(at_, def)] [q] /\ run def (first_block def at_) [q] = (out, Aok 0 l) /\
     forall x, In x out -> ~ inside_one (gotten def (first_block def at_) [(at_, def)] [q]) x).
Proof.
  intros def at_ -> ->. split.
  - exists (Areq (2 ^ 32) (2 ^ 32) 8 None). eexists. eexists. split; [reflexivity|]. split; [vm_compute; reflexivity|]. split; [|reflexivity].
    intros (p & [<- | []] & P1 & P2). vm_compute in P2. apply P2. reflexivity.
  - exists (Areq 1 (2 ^ 63) 8 (Some 65536)), 65536. eexists. eexists. split; [reflexivity|]. split; [reflexivity|]. split.
    + cbn. split; [reflexivity|]. split; [vm_compute; discriminate|]. split; [|exact I]. intros x [<- | []]. right. vm_compute. discriminate.
    + split; [vm_compute; reflexivity|]. intros x [<- | []] (p & Ip & P1 & P2). assert (Q : In p [(65536, 4064); (4096, 4064)]) by exact Ip.
      destruct Q as [<- | [<- | []]]; vm_compute in P2; apply P2; reflexivity.
Qed.
Print Assumptions C96_wrap_refuted.
