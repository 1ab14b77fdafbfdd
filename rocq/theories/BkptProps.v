(* Property C73: where to break when a function is entered. *)
From Verif Require Import Base DwModel LineModel BkptModel BkptSpec BkptProof.
From Verif Require SegProof.
From Coq Require Import ZifyBool ZifyNat.

(* Missing: where in the rows the search ends is not said beyond `window`, so rows that are
   marked but behind the window do not count (C73_marker_missed_refuted).  What
   dwarf_getsrclines, dwarf_ranges and dwarf_entrypc give is taken. *)
Theorem C73_single_partial : forall lines lo hi pc, ordered lines ->
  (entry_breakpoints (Rows lines) (One lo hi) pc = Err DWARF_E_INVALID_DWARF /\ forall k, ~ row_at lines lo k) \/
  (exists k u, window lines lo k u /\
     entry_breakpoints (Rows lines) (One lo hi) pc =
       match marked lines k u hi, next_row lines k hi with
       | [], Some a => Ok [a]
       | [], None => obind pc (fun a => Ok [a])
       | l, _ => Ok l
       end).
Proof.
  intros lines lo hi pc T. cbn [entry_breakpoints]. destruct (search_ok lines T lo hi true true []) as [(-> & N)|(k & u & F & S1)]; [left; split; [reflexivity|exact N]|]. right. exists k, u. split; [apply found_window; exact F|]. cbn zeta in S1. rewrite S1. cbn [obind app]. destruct (marked lines k u hi); [|reflexivity]. destruct (next_row lines k hi); reflexivity.
Qed.
Print Assumptions C73_single_partial.
(* addresses 16, 20, 24, an end at 32 *)
Definition mk (a : Z) (pe en : bool) : line := {| n_addr := a; n_file := 1; n_line := 1; n_col := 0; n_stmt := 1; n_bb := false; n_end := en; n_pe := pe; n_eb := false; n_op := 0; n_isa := 0; n_disc := 0 |}.
Definition ex_lines : list line := [mk 16 false false; mk 20 true false; mk 24 false false; mk 32 false true].
Definition ex_plain : list line := [mk 16 false false; mk 20 false false; mk 24 false false; mk 32 false true].
Fixpoint ordered_b (l : list line) : bool :=
  match l with [] => true | x :: l => forallb (fun y => (n_addr x <? n_addr y) || ((n_addr x =? n_addr y) && (negb (n_end y) || n_end x))) l && ordered_b l end.
Lemma ordered_b_ok : forall l, ordered_b l = true -> ordered l.
Proof.
  induction l as [|a l IH]; intros H i j x y L X Y; [apply SegProof.znth_in in X as (X & _); destruct X|]. cbn [ordered_b] in H. apply andb_true_iff in H as (H1 & H2). pose proof (SegProof.znth_in _ _ _ _ X) as (_ & IX).
  rewrite SegProof.znth_cons in Y by lia. replace (j =? 0) with false in Y by lia. destruct (Z.eq_dec i 0) as [->|NZ].
  - rewrite SegProof.znth_cons in X by lia. cbn in X. injection X as <-. apply SegProof.znth_in in Y as (Y & _). rewrite forallb_forall in H1. specialize (H1 y Y). destruct (n_addr a <? n_addr y) eqn:C; [left; lia|right]. cbn [orb] in H1. apply andb_true_iff in H1 as (E & H1). split; [lia|]. intro E1. rewrite E1 in H1. exact H1.
  - rewrite SegProof.znth_cons in X by lia. replace (i =? 0) with false in X by lia. exact (IH H2 (i - 1) (j - 1) x y ltac:(lia) X Y).
Qed.
Example C73_single_nonvacuous : ordered ex_lines /\ entry_breakpoints (Rows ex_lines) (One 16 32) (Ok 16) = Ok [20] /\ entry_breakpoints (Rows ex_plain) (One 20 32) (Ok 20) = Ok [24] /\
  entry_breakpoints (Rows ex_plain) (One 24 32) (Ok 24) = Ok [24] /\ entry_breakpoints (Rows ex_plain) (One 17 32) (Ok 17) = Err DWARF_E_INVALID_DWARF.
Proof. split; [apply ordered_b_ok; vm_compute; reflexivity|]. vm_compute. repeat split. Qed.

(* Missing: as in C73_single_partial.  One range that begins at no row makes the whole call fail. *)
Theorem C73_list_partial : forall lines rs pc, ordered lines -> (forall r, In r rs -> 0 <= fst r < two64 - 1) ->
  (entry_breakpoints (Rows lines) (Many rs) pc = Err DWARF_E_INVALID_DWARF /\ exists r, In r rs /\ forall k, ~ row_at lines (fst r) k) \/
  (exists ls, Forall2 (range_marks lines) rs ls /\
     (concat ls <> [] -> entry_breakpoints (Rows lines) (Many rs) pc = Ok (concat ls)) /\
     (concat ls = [] -> rs = [] -> entry_breakpoints (Rows lines) (Many rs) pc = obind pc (fun a => Ok [a])) /\
     (concat ls = [] -> rs <> [] -> exists r k u, first_least rs r /\ window lines (fst r) k u /\
        entry_breakpoints (Rows lines) (Many rs) pc = match next_row lines k (snd r) with Some a => Ok [a] | None => obind pc (fun a => Ok [a]) end)).
Proof.
  intros lines rs pc T R. cbn [entry_breakpoints]. pose proof (lowest_ok rs R) as LO. unfold lowest in LO. destruct (each_ok lines T rs None []) as [(-> & r & RI & N)|(ls & F & ->)]; [left; split; [reflexivity|]; exists r; split; [exact RI|exact N]|]. right. exists ls. split; [apply searched_marks; exact F|]. cbn [obind app].
  destruct (concat ls) as [|a l] eqn:C; [|split; [reflexivity|]; split; [discriminate|discriminate]]. split; [congruence|]. split.
  - intros _ ->. reflexivity.
  - intros _ NE. destruct (fold_left lower rs None) as [[s e]|]; [|contradiction]. assert (I : In (s, e) rs) by (destruct LO as (b & a & -> & _); apply in_or_app; right; left; reflexivity).
    destruct (search_ok lines T s e false true []) as [(S1 & N)|(k & u & W & S1)].
    + exfalso. clear - F I N. induction F as [|r x l ls (k & u & (K1 & K2 & W & _) & E) F IH]; [contradiction|]. destruct I as [->|I]; [exact (N k W)|exact (IH I)].
    + exists (s, e), k, u. split; [exact LO|]. split; [apply found_window; exact W|]. cbn zeta in S1. rewrite S1. cbn [app obind]. cbn [snd]. destruct (next_row lines k e); reflexivity.
Qed.
Print Assumptions C73_list_partial.
Definition ex_two : list line := [mk 16 true false; mk 20 false false; mk 32 false true; mk 64 true false; mk 68 false false; mk 80 false true].
Definition ex_two_plain : list line := [mk 16 false false; mk 20 false false; mk 32 false true; mk 64 false false; mk 68 false false; mk 80 false true].
Example C73_list_nonvacuous : ordered ex_two /\ (forall r, In r [(64, 80); (16, 32)] -> 0 <= fst r < two64 - 1) /\
  entry_breakpoints (Rows ex_two) (Many [(64, 80); (16, 32)]) (Ok 64) = Ok [64; 16] /\ entry_breakpoints (Rows ex_two_plain) (Many [(64, 80); (16, 32)]) (Ok 64) = Ok [20] /\
  entry_breakpoints (Rows ex_two) (Many []) (Ok 64) = Ok [64].
Proof. split; [apply ordered_b_ok; vm_compute; reflexivity|]. split; [intros r [<-|[<-|[]]]; vm_compute; split; congruence|]. vm_compute. repeat split. Qed.

(* what is given is an entry point, or the address of a row inside of one of the ranges *)
Theorem C73_inside : forall lines r pc bs, ordered lines -> entry_breakpoints (Rows lines) r pc = Ok bs ->
  bs <> [] /\ forall a, In a bs -> pc = Ok a \/
    exists lo hi k x, (r = One lo hi \/ exists rs, r = Many rs /\ In (lo, hi) rs) /\ znth lines k = Some x /\ n_addr x = a /\ lo <= a < hi.
Proof.
  intros lines r pc bs T H.
  assert (PC : forall P, obind pc (fun a => Ok [a]) = Ok bs -> bs <> [] /\ forall a, In a bs -> pc = Ok a \/ P a). { intros P Q. destruct pc as [p|er| |]; try discriminate. injection Q as <-. split; [discriminate|]. intros a [->|[]]. left. reflexivity. }
  assert (M : forall lo hi k u a, found_at lines lo k u -> In a (marked lines k u hi) -> exists j x, znth lines j = Some x /\ n_addr x = a /\ lo <= a < hi).
  { intros lo hi k u a (K & _ & (y & Y & YA & _) & _) I. destruct (marked_in lines k u hi a ltac:(lia) I) as (j & x & J & X & _ & XA & L). exists j, x. split; [exact X|]. split; [exact XA|]. pose proof (addr_le lines T k j y x J Y X). lia. }
  assert (NX : forall lo hi k u a, found_at lines lo k u -> next_row lines k hi = Some a -> exists j x, znth lines j = Some x /\ n_addr x = a /\ lo <= a < hi).
  { intros lo hi k u a (K & _ & (y & Y & YA & _) & _) I. destruct (next_in lines k hi a ltac:(lia) I) as (j & x & J & X & _ & XA & L). exists j, x. split; [exact X|]. split; [exact XA|]. pose proof (addr_le lines T k j y x ltac:(lia) Y X). lia. }
  cbn [entry_breakpoints] in H. destruct r as [e|lo hi|rs]; [discriminate| |].
  - destruct (search_ok lines T lo hi true true []) as [(S1 & N)|(k & u & F & S1)]; cbn zeta in S1; rewrite S1 in H; [discriminate|]. cbn [obind app] in H. destruct (marked lines k u hi) as [|z m] eqn:MK.
    + destruct (next_row lines k hi) as [b|] eqn:NR; [|apply PC; exact H]. injection H as <-. split; [discriminate|]. intros a [->|[]]. right. destruct (NX lo hi k u a F NR) as (j & x & Q). exists lo, hi, j, x. split; [left; reflexivity|exact Q].
    + injection H as <-. split; [discriminate|]. intros a I. right. rewrite <- MK in I. destruct (M lo hi k u a F I) as (j & x & Q). exists lo, hi, j, x. split; [left; reflexivity|exact Q].
  - destruct (each_ok lines T rs None []) as [(S1 & _)|(ls & F & S1)]; rewrite S1 in H; [discriminate|]. cbn [obind app] in H. destruct (concat ls) as [|z m] eqn:C.
    + assert (LO : match fold_left lower rs None with None => True | Some r => In r rs end).
      { assert (G : forall l o, (match o with None => True | Some r => In r rs end) -> incl l rs -> match fold_left lower l o with None => True | Some r => In r rs end). { induction l as [|x l IH]; intros o O L; [exact O|]. cbn [fold_left]. apply IH; [|intros y Y; apply L; right; exact Y]. unfold lower. destruct (_ <? _); [apply L; left; reflexivity|exact O]. }
        apply G; [exact Logic.I|apply incl_refl]. }
      destruct (fold_left lower rs None) as [[s e]|]; [|apply PC; exact H]. destruct (search_ok lines T s e false true []) as [(S2 & N)|(k & u & W & S2)]; cbn zeta in S2; rewrite S2 in H; [discriminate|]. cbn [obind app] in H.
      destruct (next_row lines k e) as [b|] eqn:NR; [|apply PC; exact H]. injection H as <-. split; [discriminate|]. intros a [->|[]]. right. destruct (NX s e k u a W NR) as (j & x & Q). exists s, e, j, x. split; [right; exists rs; split; [reflexivity|exact LO]|exact Q].
    + injection H as <-. split; [discriminate|]. intros a I. right. rewrite <- C in I. clear - F I M. assert (G : exists r l, In r rs /\ In a l /\ searched lines r l).
      { induction F as [|r l rs ls S1 F IH]; [contradiction|]. cbn [concat] in I. apply in_app_or in I as [I|I]; [exists r, l; split; [left; reflexivity|]; split; assumption|]. destruct (IH I) as (r' & l' & Q1 & Q2). exists r', l'. split; [right; exact Q1|exact Q2]. }
      destruct G as ([s e] & l & RI & AI & k & u & W & ->). destruct (M s e k u a W AI) as (j & x & Q). exists s, e, j, x. split; [right; exists rs; split; [reflexivity|exact RI]|exact Q].
Qed.
Print Assumptions C73_inside.
Example C73_inside_nonvacuous : ordered ex_two /\ entry_breakpoints (Rows ex_two) (Many [(64, 80); (16, 32)]) (Ok 64) = Ok [64; 16].
Proof. split; [apply ordered_b_ok; vm_compute; reflexivity|vm_compute; reflexivity]. Qed.

(* without a line table the entry point is given; a table or ranges that cannot be had are an error *)
Theorem C73_no_lines : forall r pc e lines, entry_breakpoints NoTable r pc = obind pc (fun a => Ok [a]) /\ entry_breakpoints (BadTable e) r pc = Err e /\ entry_breakpoints (Rows lines) (BadRanges e) pc = Err e.
Proof. intros. split; [reflexivity|]. split; reflexivity. Qed.
Print Assumptions C73_no_lines.
Example C73_no_lines_nonvacuous : entry_breakpoints NoTable (One 16 32) (Ok 20) = Ok [20] /\ entry_breakpoints NoTable (One 16 32) (Err 3) = Err 3.
Proof. split; reflexivity. Qed.

(* There may be a row in the function that is marked as the end of the prologue, and a
   breakpoint is put on another row: the search for the row of the entry has moved the upper
   bound below the marked row, and the markers are only looked for below that bound
   (dwarf_entry_breakpoints.c:84-91). *)
Theorem C73_marker_missed_refuted : exists lines lo hi k x a, ordered lines /\ znth lines k = Some x /\ n_pe x = true /\ lo <= n_addr x < hi /\ row_at lines lo 0 /\
  entry_breakpoints (Rows lines) (One lo hi) (Ok lo) = Ok [a] /\ a <> n_addr x.
Proof.
  exists [mk 16 false false; mk 20 false false; mk 24 false false; mk 28 true false; mk 32 false false; mk 36 false false; mk 40 false false; mk 64 false true], 16, 64, 3, (mk 28 true false), 20.
  split; [apply ordered_b_ok; vm_compute; reflexivity|]. split; [reflexivity|]. split; [reflexivity|]. split; [vm_compute; split; congruence|]. split; [eexists; split; [reflexivity|split; reflexivity]|]. split; [vm_compute; reflexivity|vm_compute; congruence].
Qed.
Print Assumptions C73_marker_missed_refuted.
