(* The properties of the addresses that files get: libdwfl/dwfl_report_elf.c, offline.c. *)
From Verif Require Import Base OffModel OffSpec OffProof.

Definition ex_file : list rsh := [Rsh true 0 0 1; Rsh true 0 21 16; Rsh false 0 48 8; Rsh true 0 4 4; Rsh true 0 8192 4096; Rsh true 0 7 0; Rsh false 0 100 1].
Lemma pw_k : forall k, 0 <= k < 64 -> pw (2 ^ k).
Proof. intros k K. exists k. auto. Qed.
Lemma ex_plain : Forall plain ex_file.
Proof.
  unfold ex_file. repeat (apply Forall_cons; [unfold plain; cbn; split; [lia|split; [auto|]]|]); try apply Forall_nil; try (left; reflexivity); right.
  - exact (pw_k 0 ltac:(lia)). - exact (pw_k 4 ltac:(lia)). - exact (pw_k 3 ltac:(lia)). - exact (pw_k 2 ltac:(lia)). - exact (pw_k 12 ltac:(lia)). - exact (pw_k 0 ltac:(lia)).
Qed.

(* a relocatable file as a compiler writes it: the module begins at the first address from the base
   on that suits all its sections, the sections are at the same offsets from there as they would be
   at 0, and the module ends with them; nothing else of the headers changes *)
Theorem C81_layout : forall base hs, 0 <= base -> Forall plain hs ->
  let m := greatest REL_MIN_ALIGN hs in let s := up base m in s + total 0 hs + m <= two64 ->
  exists hs', rel_range base hs = (hs', (s, s + total 0 hs, 0)) /\ laid (up base REL_MIN_ALIGN) s 0 hs hs'.
Proof. intros base hs B F. cbn zeta. intros NW. exact (rel_ok base B hs F NW). Qed.
Print Assumptions C81_layout.
Example C81_layout_nonvacuous : Forall plain ex_file /\ up 5000 (greatest REL_MIN_ALIGN ex_file) + total 0 ex_file + greatest REL_MIN_ALIGN ex_file <= two64 /\
  rel_range 5000 ex_file = ([Rsh true 8192 0 1; Rsh true 8192 21 16; Rsh false 0 48 8; Rsh true 8216 4 4; Rsh true 12288 8192 4096; Rsh true 20480 7 0; Rsh false 0 100 1], (8192, 20487, 0)).
Proof. split; [exact ex_plain|]. split; [apply Z.leb_le; vm_compute; reflexivity|vm_compute; reflexivity]. Qed.

(* so the loaded sections are aligned, those that are not empty lie in the range of the module and
   no two of them overlap *)
Theorem C81_sections : forall base hs hs' s e bias, 0 <= base -> Forall plain hs -> up base (greatest REL_MIN_ALIGN hs) + total 0 hs + greatest REL_MIN_ALIGN hs <= two64 ->
  rel_range base hs = (hs', (s, e, bias)) ->
  base <= s /\ (256 | s) /\ bias = 0 /\
  (forall a h b, hs' = a ++ h :: b -> r_alloc h = true -> (align_of h | r_addr h) /\ base <= r_addr h <= e /\ (0 < r_size h -> s <= r_addr h /\ r_addr h + r_size h <= e)) /\
  (forall a h b h2 c, hs' = a ++ h :: b ++ h2 :: c -> r_alloc h = true -> r_alloc h2 = true -> 0 < r_size h -> r_addr h + r_size h <= r_addr h2).
Proof.
  intros base hs hs' s e bias B F NW E. destruct (rel_ok base B hs F NW) as (l & E1 & L). cbn zeta in *. rewrite E1 in E. injection E as -> <- <- <-. assert (M256 : pw REL_MIN_ALIGN) by exact (pw_k 8 ltac:(lia)). destruct (greatest_ok hs _ M256 F) as (P & LM & GA). destruct (up_spec base _ (pw_pos _ P)) as (D & BB). destruct (up_spec base _ (pw_pos _ M256)) as (D2 & BB2).
  assert (DS : (REL_MIN_ALIGN | up base (greatest REL_MIN_ALIGN hs))) by (apply (Z.divide_trans _ (greatest REL_MIN_ALIGN hs)); [apply pw_le; assumption|exact D]).
  assert (LS : up base REL_MIN_ALIGN <= up base (greatest REL_MIN_ALIGN hs)) by (apply up_least; [exact (pw_pos _ M256)|exact DS|lia]).
  assert (DA : forall h, In h hs -> r_alloc h = true -> (align_of h | up base (greatest REL_MIN_ALIGN hs))).
  { intros h I G. apply (Z.divide_trans _ (greatest REL_MIN_ALIGN hs)); [|exact D]. apply pw_le; [|exact P|exact (GA h I G)]. apply align_pw. rewrite Forall_forall in F. apply (F h I). }
  split; [lia|]. split; [exact DS|]. split; [reflexivity|]. split.
  - intros a h b EQ G. destruct (laid_in _ _ hs hs' 0 ltac:(lia) F DA L a h b EQ G) as (P1 & P2 & P3). split; [exact P1|]. split; [specialize (P2 LS); lia|]. intros SZ. destruct (P3 (or_introl SZ)). lia.
  - exact (laid_apart _ _ hs hs' 0 ltac:(lia) F DA L).
Qed.
Print Assumptions C81_sections.
Example C81_sections_nonvacuous : exists s e, fst (snd (rel_range 5000 ex_file)) = (s, e) /\ 5000 <= s /\ s < e.
Proof. exists 8192, 20487. split; [vm_compute; reflexivity|lia]. Qed.

(* an empty section at the beginning may come to lie before the start of the module *)
Theorem C81_empty_refuted : exists base hs hs' s e bias h, Forall plain hs /\ rel_range base hs = (hs', (s, e, bias)) /\ In h hs' /\ r_alloc h = true /\ r_addr h < s.
Proof.
  exists 256, [Rsh true 0 0 4; Rsh true 0 16 4096], [Rsh true 256 0 4; Rsh true 4096 16 4096], 4096, 4112, 0, (Rsh true 256 0 4).
  split; [|split; [vm_compute; reflexivity|split; [left; reflexivity|split; [reflexivity|cbn; lia]]]].
  repeat (apply Forall_cons; [unfold plain; cbn; split; [lia|split; [auto|right]]|]); try apply Forall_nil; [exact (pw_k 2 ltac:(lia))|exact (pw_k 12 ltac:(lia))].
Qed.
Print Assumptions C81_empty_refuted.

(* a relocatable file whose sections have addresses is moved as a whole; hs: the first loaded
   section and those behind it *)
Theorem C81_moved : forall base pre h todo, Forall (fun h => r_alloc h = false) pre -> r_alloc h = true -> Forall set_before (h :: todo) ->
  let hs := pre ++ h :: todo in let lo := lowest (r_addr h) todo in let hi := highest (r_addr h + r_size h) todo in
  exists s, rel_range base hs = (hs, (s, u64 (hi - lo + s), u64 (s - lo))) /\
    ((forall x, In x todo -> r_alloc x = true -> r_addr h <= r_addr x) -> forall x, In x (h :: todo) -> r_alloc x = true -> (align_of x | u64 (r_addr x + u64 (s - lo)))).
Proof. exact set_ok. Qed.
Print Assumptions C81_moved.
Definition ex_set : list rsh := [Rsh true 8208 40 16; Rsh false 0 9 1; Rsh true 12288 5 4096; Rsh true 12296 8 8].
Lemma ex_set_ok : Forall set_before ex_set.
Proof.
  repeat (apply Forall_cons; [unfold set_before; cbn [r_alloc r_addr r_size r_align]; intros G; (discriminate G || (split; [lia|split; [lia|split; [lia|split; [right|]]]]))|]); try apply Forall_nil.
  - exact (pw_k 4 ltac:(lia)). - exists 513. reflexivity. - exact (pw_k 12 ltac:(lia)). - exists 3. reflexivity. - exact (pw_k 3 ltac:(lia)). - exists 1537. reflexivity.
Qed.
Example C81_moved_nonvacuous : Forall set_before ex_set /\ rel_range 65792 ex_set = (ex_set, (69648, 73744, 61440)).
Proof. split; [exact ex_set_ok|vm_compute; reflexivity]. Qed.
(* where the first section is not the lowest, a section may come to lie at an address that is not
   aligned although it is aligned in the file *)
Theorem C81_moved_refuted : exists base hs s e bias h, Forall set_before hs /\ rel_range base hs = (hs, (s, e, bias)) /\ In h hs /\ r_alloc h = true /\ ~ (align_of h | u64 (r_addr h + bias)).
Proof.
  exists 256, [Rsh true 8192 16 4096; Rsh true 4112 16 16], 4096, 8192, (two64 - 16), (Rsh true 8192 16 4096). split; [|split; [vm_compute; reflexivity|split; [left; reflexivity|split; [reflexivity|]]]].
  - repeat (apply Forall_cons; [unfold set_before; cbn [r_alloc r_addr r_size r_align]; intros G; split; [lia|split; [lia|split; [lia|split; [right|]]]]|]); try apply Forall_nil; [exact (pw_k 12 ltac:(lia))|exists 2; reflexivity|exact (pw_k 4 ltac:(lia))|exists 257; reflexivity].
  - intros H. apply Z.mod_divide in H; [vm_compute in H; discriminate|vm_compute; discriminate].
Qed.
Print Assumptions C81_moved_refuted.

Lemma first_load_split : forall ps, (exists a p b, ps = a ++ p :: b /\ Forall (fun x => p_load x = false) a /\ p_load p = true) \/ Forall (fun x => p_load x = false) ps.
Proof.
  induction ps as [|p ps IH]; [right; constructor|]. destruct (p_load p) eqn:E; [left; exists [], p, ps; auto|]. destruct IH as [(a & q & b & -> & F & L)|F]; [left; exists (p :: a), q, b; split; [reflexivity|split; [constructor; assumption|exact L]]|right; constructor; assumption].
Qed.
Lemma first_load_at : forall a p b, Forall (fun x => p_load x = false) a -> p_load p = true -> first_load (a ++ p :: b) = (Z.land (p_vaddr p) (u64 (- p_align p)), u64 (p_vaddr p + p_memsz p)).
Proof. induction a as [|x a IH]; intros p b F L; cbn [app first_load]; [rewrite L; reflexivity|]. apply Forall_cons_iff in F. destruct F as (X & F). rewrite X. apply IH; assumption. Qed.
Lemma last_end_at : forall bias rs p, In p rs -> p_load p = true -> 0 < u64 (p_vaddr p + p_memsz p) ->
  exists a q b, rs = a ++ q :: b /\ p_load q = true /\ last_end bias rs = u64 (bias + u64 (p_vaddr q + p_memsz q)) /\ (In p (q :: b)).
Proof.
  intros bias. induction rs as [|x rs IH]; intros p I L P; [contradiction|]. cbn [last_end]. destruct (p_load x && (0 <? u64 (p_vaddr x + p_memsz x))) eqn:E.
  - exists [], x, rs. apply andb_true_iff in E. split; [reflexivity|]. split; [apply E|]. split; [reflexivity|exact I].
  - destruct I as [->|I]; [rewrite L in E; lia|]. destruct (IH p I L P) as (a & q & b & -> & LQ & EQ & IQ). exists (x :: a), q, b. auto.
Qed.

(* other files: the range has all that is loaded; d is how far everything is moved *)
Theorem C81_segments : forall (exec : bool) base (add sanity : bool) pre p rest, let ps := pre ++ p :: rest in
  loads_ok ps -> Forall (fun x => p_load x = false) pre -> p_load p = true -> pw (p_align p) -> 0 <= base ->
  let page := p_vaddr p - p_vaddr p mod p_align p in
  let d := if exec then 0 else if add then base else base - page in
  (forall x, In x ps -> p_load x = true -> d + p_vaddr x + p_memsz x < two64) ->
  (exists x, In x ps /\ p_load x = true /\ 0 < p_memsz x) ->
  exists e, seg_range exec base add sanity ps = Some (d + page, e, u64 d) /\
    forall x y, In x ps -> p_load x = true -> p_vaddr x <= y < p_vaddr x + p_memsz x -> d + page <= d + y < e.
Proof.
  intros exec base add sanity pre p rest. cbn zeta. intros (LB & LO) F L A B NW (x0 & I0 & L0 & P0). set (ps := pre ++ p :: rest) in *. pose proof (pw_pos _ A) as A0.
  assert (IP : In p ps) by (apply in_or_app; right; left; reflexivity). destruct (LB p IP L) as (V0 & M0 & W0). pose proof (Z.mod_pos_bound (p_vaddr p) (p_align p) A0) as MB. pose proof (Z.mod_le (p_vaddr p) (p_align p) V0 A0) as MLE.
  set (page := p_vaddr p - p_vaddr p mod p_align p) in *.
  assert (FL : fst (first_load ps) = page). { unfold ps. rewrite (first_load_at _ _ _ F L). cbn [fst]. destruct A as (k & K & EK). rewrite EK in *. rewrite land_neg by lia. unfold page. rewrite EK. rewrite Z.mod_eq by (apply Z.pow_nonzero; lia). set (zz := 2 ^ k * (p_vaddr p / 2 ^ k)). clearbody zz. lia. }
  set (d := if exec then 0 else if add then base else base - page) in *.
  assert (DP : 0 <= d + page) by (unfold d; destruct exec; [unfold page; lia|]; destruct add; unfold page; lia).
  assert (DB : d + page < two64) by (specialize (NW p IP L); unfold page in *; lia).
  unfold seg_range. rewrite FL. 
  assert (BS : (if exec || add then if exec then 0 else base else u64 ((if exec then 0 else base) - page)) = u64 d). { pose proof (pw_lt _ A). unfold d, u64. destruct exec; [reflexivity|]. destruct add; cbn [orb]; [|reflexivity]. symmetry. apply Z.mod_small. unfold d in DB. assert (0 <= page) by (unfold page; lia). lia. }
  assert (SS : (if exec || add then u64 ((if exec then 0 else base) + page) else if exec then 0 else base) = d + page). { unfold d, u64 in *. destruct exec; [cbn [orb]; apply Z.mod_small; lia|]. destruct add; cbn [orb]; [apply Z.mod_small; lia|lia]. }
  rewrite BS, SS. destruct (LB x0 I0 L0) as (V1 & M1 & W1).
  destruct (last_end_at (u64 d) (rev ps) x0 (proj1 (in_rev ps x0) I0) L0 ltac:(unfold u64; rewrite Z.mod_small by lia; lia)) as (ra & q & rb & ER & LQ & EE & IQ).
  assert (EP : ps = rev rb ++ q :: rev ra) by (rewrite <- (rev_involutive ps), ER, rev_app_distr; cbn [rev]; rewrite <- app_assoc; reflexivity).
  assert (IQ' : In q ps) by (rewrite EP; apply in_or_app; right; left; reflexivity). destruct (LB q IQ' LQ) as (V2 & M2 & W2).
  assert (PQ : forall x, In x ps -> p_load x = true -> page <= p_vaddr x).
  { intros x I LX. unfold ps in I. apply in_app_or in I. destruct I as [I|[<-|I]]; [rewrite Forall_forall in F; rewrite (F x I) in LX; discriminate|unfold page; lia|]. apply in_split in I. destruct I as (b & c & I). assert (EQ : ps = pre ++ p :: b ++ x :: c) by (unfold ps; rewrite I; reflexivity). pose proof (LO _ _ _ _ _ EQ L LX). unfold page. lia. }
  assert (E2 : last_end (u64 d) (rev ps) = d + (p_vaddr q + p_memsz q)).
  { rewrite EE. unfold u64. rewrite (Z.mod_small (p_vaddr q + p_memsz q)) by lia. rewrite Zplus_mod_idemp_l. apply Z.mod_small. specialize (NW q IQ' LQ). specialize (PQ q IQ' LQ). lia. }
  rewrite E2.
  (* q is the last that is not empty at 0: nothing loaded ends behind it *)
  assert (QX : forall x, In x ps -> p_load x = true -> 0 < p_memsz x -> p_vaddr x + p_memsz x <= p_vaddr q + p_memsz q).
  { intros x I LX PX. destruct (LB x I LX) as (V3 & M3 & W3). destruct (last_end_at (u64 d) (rev ps) x (proj1 (in_rev ps x) I) LX ltac:(unfold u64; rewrite Z.mod_small by lia; lia)) as (ra' & q' & rb' & ER' & LQ' & EE' & IQx).
    assert (EP' : ps = rev rb' ++ q' :: rev ra') by (rewrite <- (rev_involutive ps), ER', rev_app_distr; cbn [rev]; rewrite <- app_assoc; reflexivity).
    assert (I' : In q' ps) by (rewrite EP'; apply in_or_app; right; left; reflexivity). destruct (LB q' I' LQ') as (V4 & M4 & W4).
    assert (E3 : last_end (u64 d) (rev ps) = d + (p_vaddr q' + p_memsz q')). { rewrite EE'. unfold u64. rewrite (Z.mod_small (p_vaddr q' + p_memsz q')) by lia. rewrite Zplus_mod_idemp_l. apply Z.mod_small. specialize (NW q' I' LQ'). specialize (PQ q' I' LQ'). lia. }
    destruct IQx as [->|IQx]; [lia|]. apply in_split in IQx. destruct IQx as (c1 & c2 & EC). assert (EQ : ps = rev c2 ++ x :: rev c1 ++ q' :: rev ra'). { rewrite EP', EC, rev_app_distr. cbn [rev]. rewrite <- !app_assoc. reflexivity. }
    pose proof (LO _ _ _ _ _ EQ LX LQ'). lia. }
  assert (NZ : (d + (p_vaddr q + p_memsz q) =? 0) = false). { specialize (QX x0 I0 L0 P0). specialize (PQ x0 I0 L0). lia. }
  rewrite NZ. cbn [andb]. eexists. split; [reflexivity|]. intros x y I LX Y. specialize (PQ x I LX). specialize (QX x I LX ltac:(lia)). lia.
Qed.
Print Assumptions C81_segments.
Definition ex_segs : list ph := [Ph false 64 500 8; Ph true 4194560 1000 4096; Ph true 4202496 5000 4096].
Example C81_segments_nonvacuous : seg_range false 65536 false true ex_segs = Some (65536, 65536 + 13192, u64 (65536 - 4194304)) /\ seg_range true 65536 false true ex_segs = Some (4194304, 4207496, 0).
Proof. vm_compute. split; reflexivity. Qed.

(* an alignment of 0, which means none, is not taken for one of 1: the first segment does not come
   to lie at the base asked for *)
Theorem C81_align_refuted : exists base ps s e bias v, loads_ok ps /\ ps = [Ph true v 256 0] /\ seg_range false base false true ps = Some (s, e, bias) /\ s = base /\ u64 (bias + v) <> base /\
  seg_range false base false true [Ph true v 256 1] = Some (base, base + 256, u64 (base - v)).
Proof.
  exists 20480, [Ph true 4096 256 0], 20480, 24832, 20480, 4096. split; [|split; [reflexivity|split; [vm_compute; reflexivity|split; [reflexivity|split; [vm_compute; discriminate|vm_compute; reflexivity]]]]].
  split; [intros p [<-|[]] _; cbn; lia|]. intros a p b q c E. destruct a as [|x a]; cbn in E; [injection E as _ E; destruct b; discriminate|]. injection E as _ E. destruct a; discriminate.
Qed.
Print Assumptions C81_align_refuted.

(* files reported one after the other get ranges that are apart, if no section wants more than the
   64 KiB between them as alignment; without that condition it is false *)
Theorem C81_offline_partial : forall files next, 0 <= next -> Forall (Forall plain) files -> Forall (Forall (fun h => r_align h <= 65536)) files ->
  next + fold_right (fun hs x => total 0 hs + 131072 + x) 0 files + 131072 <= two64 -> apart next (offline next files).
Proof.
  induction files as [|hs files IH]; intros next N F A NW; cbn [offline apart fold_right] in *; [exact Logic.I|]. apply Forall_cons_iff in F. destruct F as (F & FF). apply Forall_cons_iff in A. destruct A as (A & AA).
  assert (M256 : pw REL_MIN_ALIGN) by exact (pw_k 8 ltac:(lia)). destruct (greatest_ok hs _ M256 F) as (P & LM & _).
  assert (GB : greatest REL_MIN_ALIGN hs <= 65536). { clear - A F. assert (H : REL_MIN_ALIGN <= 65536) by (unfold REL_MIN_ALIGN; lia). revert H. generalize REL_MIN_ALIGN. induction hs as [|h hs IH]; intros m M; cbn [greatest]; [exact M|]. apply Forall_cons_iff in A. destruct A as (A1 & A). apply Forall_cons_iff in F. destruct F as (_ & F). apply IH; [exact F|exact A|]. destruct (r_alloc h); [|exact M]. unfold align_of. destruct (r_align h =? 0); lia. }
  pose proof (total_mono hs 0 F ltac:(lia)) as T0. destruct (up_spec next _ (pw_pos _ P)) as (D & B).
  assert (FP : 0 <= fold_right (fun hs x => total 0 hs + 131072 + x) 0 files). { clear - FF. induction FF as [|l files FL FF IH]; cbn [fold_right]; [lia|]. pose proof (total_mono l 0 FL ltac:(lia)). lia. }
  destruct (rel_ok next N hs F ltac:(lia)) as (hs' & E & _). cbn zeta in E. rewrite E. cbn [apart]. split; [lia|]. set (s := up next (greatest REL_MIN_ALIGN hs)) in *.
  assert (NX : next_address next s (s + total 0 hs) = s + total 0 hs + 65536).
  { unfold next_address, OFFLINE_REDZONE, u64. rewrite (Z.mod_small (s - next)) by lia. rewrite (Z.mod_small (s + total 0 hs + 65536)) by lia. destruct ((s <=? next) || (s - next <? 65536)) eqn:Q1; [|lia]. destruct (next <? s + total 0 hs + 65536) eqn:Q2; [reflexivity|lia]. }
  rewrite NX. apply IH; [lia|exact FF|exact AA|lia].
Qed.
Print Assumptions C81_offline_partial.
Example C81_offline_partial_nonvacuous : offline 65536 [ex_file; ex_file; []] = [(65536, 77831); (147456, 159751); (225536, 225536)].
Proof. vm_compute. reflexivity. Qed.
(* a section aligned to 128 KiB: the next file is put over it *)
Theorem C81_offline_refuted : exists files s1 e1 s2 e2, Forall (Forall plain) files /\ offline 65536 files = [(s1, e1); (s2, e2)] /\ s2 < s1 /\ s1 < e1 /\ e1 < e2.
Proof.
  exists [[Rsh true 0 256 131072]; [Rsh true 0 131072 16]], 131072, 131328, 65536, 196608. split; [|split; [vm_compute; reflexivity|lia]].
  repeat (apply Forall_cons; [apply Forall_cons; [unfold plain; cbn; split; [lia|split; [auto|right]]|apply Forall_nil]|]); try apply Forall_nil; [exact (pw_k 17 ltac:(lia))|exact (pw_k 4 ltac:(lia))].
Qed.
Print Assumptions C81_offline_refuted.
