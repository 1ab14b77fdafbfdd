(* C12: the string table builder (libdwelf/dwelf_strtab.c). *)
From Verif Require Import Base StrtabModel StrtabSpec StrtabProof.

Section History.
  (* Any history: a table created with or without the null string, any list of
     requests (each with the behaviour of malloc at that time), any page size. *)
  Variable nullstr : bool.
  Variable ps : Z.
  Variable l : list (bytes * (Z -> bool)).
  Hypothesis Hps : 0 < ps.
  Hypothesis Hl : Forall (fun x => c_string (fst x)) l.

  Lemma run_inv : exists st es, strtab_adds ps (strtab_init nullstr) l = Ok (st, es) /\
    st_null st = nullstr /\ length es = length l /\ sinv st (added l es).
  Proof. destruct (adds_ok l ps (strtab_init nullstr) [] (init_inv nullstr) Hps Hl)
      as (st & es & E & N & L & I). exists st, es. auto. Qed.
End History.

(* Every entry returned designates its string, NUL included, inside the
   finished buffer; nothing undefined happens (no assert fails, no byte is
   written outside the buffer of d_size bytes). *)
Theorem C12_strings_at_their_offsets :
  forall nullstr ps l, 0 < ps -> Forall (fun x => c_string (fst x)) l ->
    exists st es buf offs,
      strtab_adds ps (strtab_init nullstr) l = Ok (st, es) /\ length es = length l /\
      strtab_finalize st = Ok (buf, offs) /\
      (nullstr = true -> znth buf 0 = Some 0) /\
      forall s p, In (s, p) (added l es) ->
        0 <= strent_off offs p /\ strent_off offs p + zlen s <= zlen buf /\
        zsub buf (strent_off offs p) (zlen s) = s /\
        (nullstr = true -> s = [0] -> strent_off offs p = 0).
Proof.
  intros nullstr ps l Hps Hl. destruct (run_inv nullstr ps l Hps Hl) as (st & es & E & N & L & I).
  destruct (finalize_ok st _ I) as (buf & offs & F & _ & Z0 & H). rewrite N in *.
  exists st, es, buf, offs. do 4 (split; [assumption|]). exact H.
Qed.
Print Assumptions C12_strings_at_their_offsets.

(* The buffer is as small as suffix sharing allows: its size is the sum of the
   sizes of the strings that do not end another one. *)
Theorem C12_size_is_maximal_strings :
  forall nullstr ps l st es buf offs, 0 < ps -> Forall (fun x => c_string (fst x)) l ->
    strtab_adds ps (strtab_init nullstr) l = Ok (st, es) ->
    strtab_finalize st = Ok (buf, offs) ->
    exists ms, NoDup ms /\
      (forall s, In s ms <->
         maximal_string (filter (fun t => negb (nullstr && (zlen t =? 1))) (map fst (added l es))) s) /\
      zlen buf = total_length ms + (if nullstr then 1 else 0).
Proof.
  intros nullstr ps l st es buf offs Hps Hl E F.
  destruct (run_inv nullstr ps l Hps Hl) as (st' & es' & E' & N & L & I).
  rewrite E' in E. injection E as <- <-.
  destruct (finalize_ok _ _ I) as (buf' & offs' & F' & Lb & _). rewrite F' in F. injection F as <- <-.
  exists (map se_str (nodes (st_root st'))). rewrite N in *. split; [|split].
  - apply (NoDup_map_sub _ _ se_str (entries (st_root st'))).
    + apply strs_nodup, (si_swf _ _ I).
    + apply nodes_nodup, (si_swf _ _ I).
    + intros x. apply nodes_entries.
  - rewrite <- N. apply nodes_maximal, I.
  - rewrite Lb, node_total_strs. reflexivity.
Qed.
Print Assumptions C12_size_is_maximal_strings.

(* Adding a string again returns the same entry; different strings get
   different entries. *)
Theorem C12_one_entry_per_string :
  forall nullstr ps l st es s t p q, 0 < ps -> Forall (fun x => c_string (fst x)) l ->
    strtab_adds ps (strtab_init nullstr) l = Ok (st, es) ->
    In (s, p) (added l es) -> In (t, q) (added l es) -> (s = t <-> p = q).
Proof.
  intros nullstr ps l st es s t p q Hps Hl E Hp Hq.
  destruct (run_inv nullstr ps l Hps Hl) as (st' & es' & E' & N & L & I).
  rewrite E' in E. injection E as <- <-. split.
  - intros <-. eapply hist_same_string; eauto.
  - intros <-. destruct (si_hist _ _ I s p Hp) as [(-> & -> & Ht)|(x & Hx & <- & <-)];
      destruct (si_hist _ _ I t _ Hq) as [(-> & E & Ht')|(y & Hy & <- & Ey)]; auto.
    + destruct (ar_below _ (si_arena _ _ I) y SENT_SIZE) as (k & oo & H1 & _); [left; auto|congruence].
    + destruct (ar_below _ (si_arena _ _ I) x SENT_SIZE) as (k & oo & H1 & _); [left; auto|congruence].
    + now rewrite (ptr_inj _ _ x y I Hx Hy (eq_sym Ey)).
Qed.
Print Assumptions C12_one_entry_per_string.

(* Memory of the builder: the structures of all entries handed out so far are
   aligned, lie inside the allocated blocks and never overlap (although memory
   of rejected entries and unneeded reversed strings is recycled). *)
Theorem C12_entries_never_overlap :
  forall nullstr ps l st es, 0 < ps -> Forall (fun x => c_string (fst x)) l ->
    strtab_adds ps (strtab_init nullstr) l = Ok (st, es) ->
    (forall s k o, In (s, EAt k o) (added l es) ->
       o mod 8 = 0 /\ 0 <= o /\ exists sz, nth_error (st_blocks st) k = Some sz /\ o + 48 <= sz) /\
    (forall s t k o k' o', In (s, EAt k o) (added l es) -> In (t, EAt k' o') (added l es) -> s <> t ->
       k <> k' \/ o + 48 <= o' \/ o' + 48 <= o).
Proof.
  intros nullstr ps l st es Hps Hl E.
  destruct (run_inv nullstr ps l Hps Hl) as (st' & es' & E' & N & L & I).
  rewrite E' in E. injection E as <- <-. split.
  - intros s k o Hin. destruct (si_hist _ _ I s _ Hin) as [(_ & ? & _)|(x & Hx & _ & Ex)]; [discriminate|].
    destruct (ar_below _ (si_arena _ _ I) x SENT_SIZE) as (k' & o' & H1 & H2 & H3 & _ & H4 & _); [left; auto|].
    rewrite Ex in H1. injection H1 as <- <-. unfold SENT_SIZE, SENT_ALIGN, MB_OVERHEAD in *. 
    split; [exact H3|]. split; [lia|exact H4].
  - intros s t k o k' o' Hs Ht Hne.
    destruct (si_hist _ _ I s _ Hs) as [(_ & ? & _)|(x & Hx & <- & Ex)]; [discriminate|].
    destruct (si_hist _ _ I t _ Ht) as [(_ & ? & _)|(y & Hy & <- & Ey)]; [discriminate|].
    destruct (ar_apart _ (si_arena _ _ I) x SENT_SIZE y SENT_SIZE) as [H|H]; [left; auto|left; auto|congruence|].
    unfold apart, disjoint, SENT_SIZE in H. rewrite Ex, Ey in H. exact H.
Qed.
Print Assumptions C12_entries_never_overlap.

(* "main", "in", "domain", "in" again, "", "n" with a table that has a null
   string; malloc always succeeds. *)
Definition demo_adds : list (bytes * (Z -> bool)) :=
  map (fun s => (s ++ [0], fun _ => true))
      [[109;97;105;110]; [105;110]; [100;111;109;97;105;110]; [105;110]; []; [110]].

Example C12_nonvacuous :
  Forall (fun x => c_string (fst x)) demo_adds /\
  (' (st, es) <- strtab_adds 4096 (strtab_init true) demo_adds ;;
   ' (buf, offs) <- strtab_finalize st ;;
   Ok (buf, map (option_map (strent_off offs)) es))
  = Ok ([0; 100;111;109;97;105;110; 0], [Some 3; Some 5; Some 1; Some 5; Some 0; Some 6]).
Proof.
  split; [|reflexivity].
  unfold demo_adds. cbn [map].
  repeat (apply Forall_cons; [eexists; reflexivity|]). apply Forall_nil.
Qed.
