(* C72: the lines of a source file. *)
From Verif Require Import Base DwModel LineModel SrcModel SrcSpec SrcProof.
From Coq Require Import ZifyBool ZifyNat.

Definition room (nsrcs : Z) : Z := if nsrcs =? 0 then two32 - 1 else nsrcs.
(* For a line number other than 0: every line returned is a line of a file of the given
   name, at or behind the line (and column); for each file, of the lines of all units up
   to where the search ended, what is returned is what is best, in order, or a first part
   of it if there is no more room; and the search ends early only if there is no room
   left.  If there is none in all units, the call fails with DWARF_E_NO_MATCH.  Partial:
   the full claim has also 0, which is to match every line (C72_zero_refuted), and does not
   return ends of sequences (C72_end_refuted) or the same line twice
   (C72_twice_refuted). *)
Theorem C72_lines_partial : forall us c fname lineno column nsrcs,
  lineno <> 0 -> 0 <= nsrcs -> Forall small us -> all_candidates fname lineno column us c ->
  (c = [] /\ getsrc_file us fname lineno column nsrcs = Err DWARF_E_NO_MATCH) \/
  (exists n c' r, getsrc_file us fname lineno column nsrcs = Ok r /\ r <> [] /\ zlen r <= room nsrcs /\
    (n <= length us)%nat /\ all_candidates fname lineno column (firstn n us) c' /\ (n = length us /\ c' = c \/ zlen r = room nsrcs) /\
    (forall x, In x r -> In x c') /\
    (forall t f, exists rest, best lineno column (of_file t f c') (of_file t f r ++ rest) /\ (zlen r < room nsrcs -> rest = []))).
Proof.
  intros us c fname lineno column nsrcs L0 N0 SM A. assert (M0 : 0 < room nsrcs) by (unfold room; destruct (nsrcs =? 0) eqn:Z0; lia).
  destruct (units_ok fname lineno column (room nsrcs) L0 M0 us c A SM [] [] (inv_nil lineno column _ M0)) as (n & c' & r & N & A' & U & ((I1 & _) & I2 & I3) & O). cbn [app] in *. unfold getsrc_file. fold (room nsrcs). rewrite U. cbn [obind].
  destruct r as [|x r].
  - left. change (zlen []) with 0 in *. destruct O as [(-> & ->)|O]; [|lia]. split; [|reflexivity]. destruct c as [|[t l] c]; [reflexivity|]. exfalso. destruct (I3 t (n_file l)) as (rest & B & R). rewrite (R M0) in B. apply bestb_nil in B. pose proof (in_of t (Found t l :: c) l (or_introl eq_refl)) as J. rewrite B in J. destruct J.
  - right. exists n, c', (x :: r). split; [reflexivity|]. split; [discriminate|]. split; [exact I1|]. split; [exact N|]. split; [exact A'|]. split; [exact O|]. split.
    + intros [t l] J. apply in_of in J. destruct (I3 t (n_file l)) as (rest & B & _). pose proof (bestb_in _ _ _ _ l B (in_or_app _ _ _ (or_introl J))) as K. apply of_in in K. apply K.
    + intros t f. destruct (I3 t f) as (rest & B & R). exists rest. split; [apply bestb_ok; exact B|exact R].
Qed.
Print Assumptions C72_lines_partial.
(* A line of a file that the file table does not have makes the call fail. *)
Theorem C72_bad_file : forall us us' fname lineno column nsrcs t names l1 l l2 c c',
  lineno <> 0 -> 0 <= nsrcs -> Forall small us -> all_candidates fname lineno column us c -> zlen c < room nsrcs ->
  candidates fname lineno column t names l1 c' -> zlen names < two32 -> znth names (n_file l) = None -> n_file l <> two32 - 1 ->
  getsrc_file (us ++ HasLines t names (l1 ++ l :: l2) :: us') fname lineno column nsrcs = Err DWARF_E_INVALID_DWARF.
Proof.
  intros us us' fname lineno column nsrcs t names l1 l l2 c c' L0 N0 SM A LC C NS NL NM. assert (M0 : 0 < room nsrcs) by (unfold room; destruct (nsrcs =? 0) eqn:Z0; lia).
  assert (G : forall us c, all_candidates fname lineno column us c -> Forall small us -> forall pre m, inv lineno column (room nsrcs) pre m -> zlen pre + zlen c < room nsrcs ->
    units fname lineno column (room nsrcs) (us ++ HasLines t names (l1 ++ l :: l2) :: us') m = Err DWARF_E_INVALID_DWARF).
  { clear us c A SM LC. intros us c A. induction A as [|u us r U A IH|t1 n1 ls us c r C1 A IH]; intros SM pre m I LC.
    - cbn [app units]. rewrite (scan_bad fname lineno column (room nsrcs) t names l1 l l2 c' C NL NM _ _ m (start_remembers fname names NS)). reflexivity.
    - apply Forall_cons_iff in SM as (_ & SM). cbn [app units]. destruct U as [-> | ->]; exact (IH SM pre m I LC).
    - apply Forall_cons_iff in SM as (S1 & SM). cbn [app units small] in *. rewrite zlen_app in LC. pose proof (zlen_nonneg _ r).
      destruct (scan_ok fname lineno column (room nsrcs) L0 M0 _ _ _ _ C1 (two32 - 1) false pre m (start_remembers fname n1 S1) I) as (m1 & -> & I1). cbn [obind]. pose proof I1 as ((_ & LM) & _). rewrite zlen_app in LM.
      replace (zlen m1 =? room nsrcs) with false by lia. apply (IH SM (pre ++ c) m1 I1). rewrite zlen_app. lia. }
  unfold getsrc_file. fold (room nsrcs). rewrite (G us c A SM [] [] (inv_nil _ _ _ M0)); [reflexivity|exact LC].
Qed.
Print Assumptions C72_bad_file.

(* ------------------------------------------------------------------ *)
(* Two units: /a/x.c with three rows for line 7, and x.c again, whose lines 9 and 8 are
   behind line 7. *)
Definition row (addr file ln col : Z) (e : bool) : line := Line addr file ln col 1 false e false false 0 0 0.
Definition n_1 : list bytes := [[63]; [47; 97; 47; 120; 46; 99]; [121; 46; 104]].
Definition n_2 : list bytes := [[63]; [120; 46; 99]].
Definition e_us : list unit_lines :=
  [NoDie; HasLines 1 n_1 [row 16 1 9 0 false; row 20 1 7 3 false; row 24 2 7 0 false; row 28 1 8 0 false; row 32 1 7 5 false];
   NoLines; HasLines 2 n_2 [row 64 1 9 0 false; row 68 1 3 0 false; row 72 1 8 4 false; row 76 1 8 2 false]].
Definition xc : bytes := [120; 46; 99].
Definition addrs (r : outcome (list found)) : list Z := match r with Ok l => map (fun x => n_addr (o_line x)) l | _ => [] end.
Ltac c_out := eapply C_out; [reflexivity|intros (NN & (BB & _)); first [cbn in BB; lia | apply name_ok in NN; vm_compute in NN; discriminate]|].
Ltac c_in := eapply C_in; [reflexivity|apply name_ok; vm_compute; reflexivity|split; [cbn; lia|left; reflexivity]|].
Example C72_lines_nonvacuous :
  Forall small e_us /\
  all_candidates xc 7 0 e_us ([Found 1 (row 16 1 9 0 false); Found 1 (row 20 1 7 3 false); Found 1 (row 28 1 8 0 false); Found 1 (row 32 1 7 5 false)] ++ [Found 2 (row 64 1 9 0 false); Found 2 (row 72 1 8 4 false); Found 2 (row 76 1 8 2 false)] ++ []) /\
  addrs (getsrc_file e_us xc 7 0 0) = [20; 32; 76] /\ addrs (getsrc_file e_us xc 7 0 1) = [20] /\ addrs (getsrc_file e_us [47; 97; 47; 120; 46; 99] 8 0 0) = [28] /\ getsrc_file e_us xc 10 0 0 = Err DWARF_E_NO_MATCH.
Proof.
  split; [repeat (apply Forall_cons; [first [exact Logic.I|cbn; lia]|]); apply Forall_nil|]. split.
  { apply A_skip; [left; reflexivity|]. apply A_unit. { c_in. c_in. c_out. c_in. c_in. apply C_nil. } apply A_skip; [right; reflexivity|]. apply A_unit. { c_in. c_out. c_in. c_in. apply C_nil. } apply A_nil. }
  split; [vm_compute; reflexivity|]. split; [vm_compute; reflexivity|]. split; vm_compute; reflexivity.
Qed.
Example C72_bad_file_nonvacuous : znth n_2 (n_file (row 80 2 1 0 false)) = None /\ getsrc_file (e_us ++ [HasLines 2 n_2 [row 64 1 9 0 false; row 80 2 1 0 false]]) xc 7 0 0 = Err DWARF_E_INVALID_DWARF.
Proof. split; vm_compute; reflexivity. Qed.

(* "If any of the numbers is zero, no match is performed": with line number 0 not all lines
   of the file are returned, only one. *)
Theorem C72_zero_refuted : exists us, addrs (getsrc_file us xc 0 0 0) = [20] /\ us = [HasLines 2 n_2 [row 16 1 9 0 false; row 20 1 7 0 false; row 24 1 8 0 false]].
Proof. eexists. split; [|reflexivity]. vm_compute. reflexivity. Qed.
(* The row that ends a sequence has the line of the row before: its address, behind the
   code, is returned as one of the line. *)
Theorem C72_end_refuted : exists us, us = [HasLines 2 n_2 [row 16 1 7 0 false; row 20 1 7 0 true]] /\ addrs (getsrc_file us xc 7 0 0) = [16; 20].
Proof. eexists. split; [reflexivity|]. vm_compute. reflexivity. Qed.
(* Two units with the same line table: every exact line is returned twice. *)
Theorem C72_twice_refuted : exists u, u = HasLines 2 n_2 [row 16 1 7 0 false; row 20 1 8 0 false] /\ addrs (getsrc_file [u; u] xc 7 0 0) = [16; 16].
Proof. eexists. split; [reflexivity|]. vm_compute. reflexivity. Qed.
