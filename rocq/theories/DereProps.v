(* The properties of addresses and sections of modules: libdwfl/derelocate.c. *)
From Coq Require Import Permutation Sorted.
From Verif Require Import Base RelocModel DereModel DereSpec DereProof.
From Verif Require SegProof.

Definition ex_hdrs : list hdr := [Hdr false 0 0 false 0; Hdr true 0 16 false 0; Hdr false 0 48 true 1; Hdr false 0 24 true 4; Hdr true 0 8 false 0; Hdr true 0 4 false 0; Hdr false 0 7 false 0; Hdr true 0 9 false 0].
Definition ex_addr (i : Z) : option Z := if i =? 1 then Some 4128 else if i =? 4 then Some 4096 else if i =? 5 then Some 4104 else None.

(* the table has every loaded section of the file once, with its addresses, and is in the order of addresses *)
Theorem C79_table : forall is_rel bias cb hs, let l := table is_rel bias cb hs in
  StronglySorted before l /\ NoDup (map q_scn l) /\
  (forall i s e, placed is_rel bias cb hs i s e <-> exists r, In r l /\ q_scn r = i /\ q_start r = s /\ q_end r = e).
Proof.
  intros is_rel bias cb hs. cbn zeta. destruct (table_ok is_rel bias cb hs) as (A & B & C). split; [exact A|]. split; [exact B|]. intros i s e. rewrite C. split; intros (r & I & E); exists r; (split; [exact I|]).
  - injection E as <- <- <-. auto.
  - destruct E as (<- & <- & <-). reflexivity.
Qed.
Print Assumptions C79_table.
Example C79_table_nonvacuous : table true 256 ex_addr ex_hdrs = [Ref 4 (Some 3) 4352 4360; Ref 5 None 4360 4364; Ref 1 (Some 2) 4384 4400].
Proof. vm_compute. reflexivity. Qed.

(* the relocation section that goes with a section is the last one in the file that is for it *)
Theorem C79_relocs : forall bias cb hs r, (forall h, In h hs -> h_rel h = true -> h_alloc h = false) -> In r (table true bias cb hs) ->
  match q_relocs r with
  | Some j => relocates hs j (q_scn r) /\ forall k, j < k -> ~ relocates hs k (q_scn r)
  | None => forall k, ~ relocates hs k (q_scn r)
  end.
Proof.
  intros bias cb hs r NA I. pose proof (table_relocs true bias cb eq_refl hs NA r I) as L. destruct (q_relocs r) as [j|]; cbn [lastrel] in L.
  - destruct L as (A & _ & C). split; [exact A|]. intros k K. exact (C k K Logic.I).
  - intros k. exact (L k Logic.I).
Qed.
Print Assumptions C79_relocs.
Example C79_relocs_nonvacuous : (forall h, In h ex_hdrs -> h_rel h = true -> h_alloc h = false) /\ In (Ref 4 (Some 3) 4352 4360) (table true 256 ex_addr ex_hdrs).
Proof.
  split; [|vm_compute; left; reflexivity]. intros h I. unfold ex_hdrs in I. cbn [In] in I. repeat (destruct I as [<-|I]; [cbn; congruence|]). contradiction.
Qed.

Lemma sorted_znth : forall l i j a b, StronglySorted before l -> i < j -> znth l i = Some a -> znth l j = Some b -> before a b.
Proof.
  induction l as [|x l IH]; intros i j a b S1 IJ A B.
  - apply znth_range in A. unfold zlen in A. cbn in A. lia.
  - apply StronglySorted_inv in S1. destruct S1 as (S1 & S2). pose proof (znth_range _ _ _ _ A) as RA. rewrite SegProof.znth_cons in A, B. replace (j =? 0) with false in B by lia. destruct (i =? 0) eqn:I0.
    + injection A as <-. rewrite Forall_forall in S2. apply S2. exact (proj1 (SegProof.znth_in _ _ _ _ B)).
    + exact (IH (i - 1) (j - 1) a b S1 ltac:(lia) A B).
Qed.
Lemma table_spaced : forall is_rel bias cb hs, disjoint is_rel bias cb hs ->
  (forall i j a b, i < j -> znth (table is_rel bias cb hs) i = Some a -> znth (table is_rel bias cb hs) j = Some b -> q_end a <= q_start b) /\
  (forall r, In r (table is_rel bias cb hs) -> q_start r < q_end r).
Proof.
  intros is_rel bias cb hs (NE & DJ). destruct (C79_table is_rel bias cb hs) as (S1 & ND & P). set (l := table is_rel bias cb hs) in *.
  assert (PL : forall r, In r l -> placed is_rel bias cb hs (q_scn r) (q_start r) (q_end r)) by (intros r I; apply P; exists r; auto). split; [|intros r I; exact (NE _ _ _ (PL r I))].
  intros i j a b IJ A B. pose proof (sorted_znth l i j a b S1 IJ A B) as BF. pose proof (PL a (proj1 (SegProof.znth_in _ _ _ _ A))) as PA. pose proof (PL b (proj1 (SegProof.znth_in _ _ _ _ B))) as PB.
  pose proof (NE _ _ _ PA). pose proof (NE _ _ _ PB). destruct (Z_le_gt_dec (q_end a) (q_start b)) as [Q|Q]; [exact Q|]. exfalso.
  assert (LE : q_start a <= q_start b) by (unfold before in BF; lia). assert (EQ : q_scn a = q_scn b) by (apply (DJ _ _ _ _ _ _ (q_start b) PA PB); lia).
  unfold znth in A, B. destruct ((0 <=? i) && (i <? zlen l)) eqn:RI; [|discriminate]. destruct ((0 <=? j) && (j <? zlen l)) eqn:RJ; [|discriminate].
  assert (X : Z.to_nat i = Z.to_nat j); [|lia]. apply (proj1 (NoDup_nth_error (map q_scn l)) ND); [rewrite map_length; unfold zlen in *; lia|]. rewrite !nth_error_map, A, B. cbn. f_equal. exact EQ.
Qed.
(* An address inside a section of the file gives that section, and the offset in it.  The statement needs sections
   that are apart and not empty; see below for others. *)
Theorem C79_inside_partial : forall bias cb hs i s e addr, disjoint true bias cb hs -> placed true bias cb hs i s e -> s <= addr < e ->
  let k := K_REL (table true bias cb hs) in
  exists idx, 0 <= idx < relocations k /\ relocate_address k addr = Ok (idx, addr - s) /\ relocation_info k idx = Some i.
Proof.
  intros bias cb hs i s e addr D P A. cbn zeta. destruct (table_spaced _ _ _ _ D) as (SP & NE). destruct (find_spaced (table true bias cb hs) addr SP NE) as (o & F & B). destruct (C79_table true bias cb hs) as (_ & _ & T). destruct D as (D1 & D2).
  destruct (proj1 (T i s e) P) as (r0 & I0 & <- & <- & <-). cbn [relocate_address relocation_info relocations]. rewrite F. cbn [obind].
  destruct o as [(idx, off)|]; cbn [best] in B.
  - destruct B as (r & E & -> & [R|(R1 & R2)]).
    + assert (PR : placed true bias cb hs (q_scn r) (q_start r) (q_end r)) by (apply T; exists r; split; [exact (proj1 (SegProof.znth_in _ _ _ _ E))|auto]).
      pose proof (D2 _ _ _ _ _ _ addr P PR A R) as Q. assert (QQ : q_start r = q_start r0 /\ q_end r = q_end r0).
      { destruct P as (_ & h & a & H & L & X1 & X2). destruct PR as (_ & h' & a' & H' & L' & Y1 & Y2). rewrite Q in H, L. rewrite H in H'. injection H' as <-. rewrite L in L'. injection L' as <-. split; congruence. }
      exists idx. split; [exact (znth_range _ _ _ _ E)|]. rewrite E. cbn [option_map]. rewrite Q. split; [|reflexivity]. destruct QQ as (-> & _). unfold u64. rewrite Z.mod_small; [reflexivity|].
      destruct P as (_ & h & a & _ & _ & X1 & X2). pose proof (Z.mod_pos_bound (a + bias) two64 ltac:(lia)). pose proof (Z.mod_pos_bound (a + bias + h_size h) two64 ltac:(lia)). lia.
    + exfalso. destruct (in_znth' r0 _ I0) as (i0 & E0). destruct (Z.lt_trichotomy i0 idx) as [Q|[->|Q]].
      * pose proof (SP i0 idx r0 r Q E0 E). pose proof (NE r (proj1 (SegProof.znth_in _ _ _ _ E))). lia.
      * rewrite E in E0. injection E0 as <-. lia.
      * pose proof (SP idx i0 r r0 Q E E0). apply (R2 r0 I0). lia.
  - exfalso. apply (B r0 I0). lia.
Qed.
Print Assumptions C79_inside_partial.
(* the end of a section is in it unless another begins there; and an address that is in no section is not found *)
Theorem C79_limit_partial : forall bias cb hs i s e, disjoint true bias cb hs -> placed true bias cb hs i s e -> (forall j s' e', placed true bias cb hs j s' e' -> s' <> e) ->
  let k := K_REL (table true bias cb hs) in
  exists idx, relocate_address k e = Ok (idx, e - s) /\ relocation_info k idx = Some i.
Proof.
  intros bias cb hs i s e D P A. cbn zeta. destruct (table_spaced _ _ _ _ D) as (SP & NE). destruct (find_spaced (table true bias cb hs) e SP NE) as (o & F & B). destruct (C79_table true bias cb hs) as (_ & _ & T). destruct D as (D1 & D2).
  destruct (proj1 (T i s e) P) as (r0 & I0 & <- & <- & <-). cbn [relocate_address relocation_info relocations]. rewrite F. cbn [obind].
  destruct o as [(idx, off)|]; cbn [best] in B; [|exfalso; apply (B r0 I0); pose proof (D1 _ _ _ P); lia].
  destruct B as (r & E & -> & R). assert (IR : In r (table true bias cb hs)) by exact (proj1 (SegProof.znth_in _ _ _ _ E)).
  assert (PR : placed true bias cb hs (q_scn r) (q_start r) (q_end r)) by (apply T; exists r; auto). exists idx. rewrite E. cbn [option_map].
  destruct (in_znth' r0 _ I0) as (i0 & E0). assert (EQ : i0 = idx).
  { destruct (Z.lt_trichotomy i0 idx) as [Q|[Q|Q]]; [exfalso|exact Q|exfalso].
    - pose proof (SP i0 idx r0 r Q E0 E). pose proof (NE r IR). pose proof (A _ _ _ PR). lia.
    - pose proof (SP idx i0 r r0 Q E E0). pose proof (NE r0 I0). lia. }
  subst i0. rewrite E in E0. injection E0 as ->. split; [|reflexivity]. unfold u64. rewrite Z.mod_small; [reflexivity|].
  destruct P as (P1 & h & a & X0 & XL & X1 & X2). pose proof (Z.mod_pos_bound (a + bias) two64 ltac:(lia)). pose proof (Z.mod_pos_bound (a + bias + h_size h) two64 ltac:(lia)). pose proof (NE r0 I0). lia.
Qed.
Print Assumptions C79_limit_partial.
Lemma ex_placed : forall i s e, placed true 256 ex_addr ex_hdrs i s e -> (i = 4 /\ s = 4352 /\ e = 4360) \/ (i = 5 /\ s = 4360 /\ e = 4364) \/ (i = 1 /\ s = 4384 /\ e = 4400).
Proof.
  intros i s e P. destruct (C79_table true 256 ex_addr ex_hdrs) as (_ & _ & T). apply T in P. destruct P as (r & I & <- & <- & <-). rewrite C79_table_nonvacuous in I. destruct I as [<-|[<-|[<-|[]]]]; cbn; auto.
Qed.
Lemma ex_disjoint : disjoint true 256 ex_addr ex_hdrs.
Proof. split; [intros i s e P; apply ex_placed in P; lia|]. intros i j s e s' e' x P Q X Y. apply ex_placed in P. apply ex_placed in Q. lia. Qed.
Example C79_inside_partial_nonvacuous : disjoint true 256 ex_addr ex_hdrs /\ placed true 256 ex_addr ex_hdrs 5 4360 4364 /\ relocate_address (K_REL (table true 256 ex_addr ex_hdrs)) 4360 = Ok (1, 0) /\ relocate_address (K_REL (table true 256 ex_addr ex_hdrs)) 4359 = Ok (0, 7).
Proof. split; [exact ex_disjoint|]. split; [split; [lia|]; exists (Hdr true 0 4 false 0), 4104; vm_compute; repeat split|]. split; vm_compute; reflexivity. Qed.
Example C79_limit_partial_nonvacuous : disjoint true 256 ex_addr ex_hdrs /\ placed true 256 ex_addr ex_hdrs 5 4360 4364 /\ (forall j s' e', placed true 256 ex_addr ex_hdrs j s' e' -> s' <> 4364) /\ relocate_address (K_REL (table true 256 ex_addr ex_hdrs)) 4364 = Ok (1, 4).
Proof. split; [exact ex_disjoint|]. split; [split; [lia|]; exists (Hdr true 0 4 false 0), 4104; vm_compute; repeat split|]. split; [intros j s e P; apply ex_placed in P; lia|vm_compute; reflexivity]. Qed.

(* whatever the sections are, the call comes back; what it gives contains the address, and if no
   section does it returns -1 and the address stays *)
Theorem C79_sound : forall bias cb hs addr, 0 <= addr < two64 -> let k := K_REL (table true bias cb hs) in
  exists idx off, relocate_address k addr = Ok (idx, off) /\
    ((idx = -1 /\ off = addr) \/
     (exists i s e, relocation_info k idx = Some i /\ placed true bias cb hs i s e /\ s <= addr /\ (addr <= e \/ addr = s) /\ off = addr - s)).
Proof.
  intros bias cb hs addr A. cbn zeta. cbn [relocate_address relocation_info]. pose proof (find_sound (table true bias cb hs) addr) as F. destruct (find_section _ addr) as [[(idx, off)|]| | |]; try contradiction; cbn [obind].
  - exists idx, off. split; [reflexivity|]. right. destruct F as (r & E & L & H & ->). exists (q_scn r), (q_start r), (q_end r). rewrite E. split; [reflexivity|].
    assert (PR : placed true bias cb hs (q_scn r) (q_start r) (q_end r)). { apply (proj2 (proj2 (C79_table true bias cb hs))). exists r. split; [exact (proj1 (SegProof.znth_in _ _ _ _ E))|auto]. }
    split; [exact PR|]. split; [exact L|]. split; [exact H|]. destruct PR as (_ & h & a & _ & _ & X1 & _). pose proof (Z.mod_pos_bound (a + bias) two64 ltac:(lia)). unfold u64. rewrite Z.mod_small by lia. reflexivity.
  - exists (-1), addr. split; [reflexivity|]. left. auto.
Qed.
Print Assumptions C79_sound.
Example C79_sound_nonvacuous : relocate_address (K_REL (table true 256 ex_addr ex_hdrs)) 4370 = Ok (-1, 4370) /\ relocate_address (K_REL (table true 256 ex_addr ex_hdrs)) 4390 = Ok (2, 6).
Proof. split; vm_compute; reflexivity. Qed.
(* of other modules: one base, or none *)
Theorem C79_other : forall low addr, relocations (K_DYN low) = 1 /\ relocations K_EXEC = 0 /\ (forall idx, relocation_info (K_DYN low) idx <> None <-> idx = 0) /\ (forall idx, relocation_info K_EXEC idx = None) /\
  (0 <= low <= addr -> addr < two64 -> relocate_address (K_DYN low) addr = Ok (0, addr - low)) /\ relocate_address K_EXEC addr = Ok (0, addr).
Proof.
  intros low addr. split; [reflexivity|]. split; [reflexivity|]. split; [|split; [reflexivity|split; [|reflexivity]]].
  - intros idx. cbn. destruct (idx =? 0) eqn:E; split; intros H; try lia; congruence.
  - intros L A. cbn. unfold u64. rewrite Z.mod_small by lia. reflexivity.
Qed.
Print Assumptions C79_other.
Example C79_other_nonvacuous : relocate_address (K_DYN 4096) 4100 = Ok (0, 4).
Proof. reflexivity. Qed.
(* A section the callback says is not loaded is in the table at address 0 of the module, and addresses
   there are said to be in it, also when a loaded section has them. *)
Theorem C79_discarded_refuted : exists cb hs, cb 2 = Some (two64 - 1) /\ cb 1 = Some 4096 /\ relocate_address (K_REL (table true 0 cb hs)) 3 = Ok (0, 3) /\ relocation_info (K_REL (table true 0 cb hs)) 0 = Some 2 /\
  exists hs' , relocate_address (K_REL (table true 0 cb hs')) 4098 = Ok (1, 2) /\ relocation_info (K_REL (table true 0 cb hs')) 1 = Some 1 /\ placed true 0 cb hs' 2 0 8192.
Proof.
  exists (fun i => if i =? 2 then Some (two64 - 1) else Some 4096), [Hdr false 0 0 false 0; Hdr true 0 16 false 0; Hdr true 0 16 false 0]. split; [reflexivity|]. split; [reflexivity|]. split; [vm_compute; reflexivity|]. split; [vm_compute; reflexivity|].
  exists [Hdr false 0 0 false 0; Hdr true 0 16 false 0; Hdr true 0 8192 false 0]. split; [vm_compute; reflexivity|]. split; [vm_compute; reflexivity|]. split; [lia|]. exists (Hdr true 0 8192 false 0), 0. repeat split; vm_compute; reflexivity.
Qed.
Print Assumptions C79_discarded_refuted.
(* Between two sections that touch an empty one is given for an address that is in the second. *)
Theorem C79_empty_refuted : exists cb hs, placed true 0 cb hs 5 4112 4128 /\ relocate_address (K_REL (table true 0 cb hs)) 4112 = Ok (3, 0) /\ relocation_info (K_REL (table true 0 cb hs)) 3 = Some 4 /\ placed true 0 cb hs 4 4112 4112.
Proof.
  exists (fun i => if i =? 1 then Some 256 else if i =? 2 then Some 512 else if i =? 3 then Some 4096 else Some 4112), [Hdr false 0 0 false 0; Hdr true 0 16 false 0; Hdr true 0 16 false 0; Hdr true 0 16 false 0; Hdr true 0 0 false 0; Hdr true 0 16 false 0].
  split; [split; [lia|]; exists (Hdr true 0 16 false 0), 4112; repeat split; vm_compute; reflexivity|]. split; [vm_compute; reflexivity|]. split; [vm_compute; reflexivity|]. split; [lia|]. exists (Hdr true 0 0 false 0), 4112. repeat split; vm_compute; reflexivity.
Qed.
Print Assumptions C79_empty_refuted.
(* When sections overlap, an address that is in one may not be found at all. *)
Theorem C79_overlap_refuted : exists cb hs, placed true 0 cb hs 1 4096 8192 /\ relocate_address (K_REL (table true 0 cb hs)) 5000 = Ok (-1, 5000).
Proof.
  exists (fun i => if i =? 1 then Some 4096 else if i =? 2 then Some 4100 else Some 16384), [Hdr false 0 0 false 0; Hdr true 0 4096 false 0; Hdr true 0 16 false 0; Hdr true 0 16 false 0].
  split; [split; [lia|]; exists (Hdr true 0 4096 false 0), 4096; repeat split; vm_compute; reflexivity|vm_compute; reflexivity].
Qed.
Print Assumptions C79_overlap_refuted.
