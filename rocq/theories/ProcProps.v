(* C88: the modules of a process. *)
From Verif Require Import Base CrcModel ProcModel ProcSpec FindProof ProcProof.

(* "400000-401000 r-xp 00000000 08:01 42 /a" and so on, made from parts *)
Definition ln (sa sb so si name : bytes) : bytes := sa ++ [45] ++ sb ++ [32] ++ [114; 45; 120; 112] ++ [32] ++ so ++ [32] ++ [48; 56] ++ [58] ++ [48; 49] ++ [32] ++ si ++ [32; 32] ++ name ++ [10].
Definition d_lines : list bytes :=
  [ ln [52; 48] [53; 48] [48] [52; 50] [47; 97]; ln [53; 48] [54; 48] [49] [52; 50] [47; 97];
    ln [54; 48] [55; 48] [48] [48] [91; 104; 93];
    ln [55; 48] [56; 48] [48] [52; 51] [47; 98]; ln [57; 48] [97; 48] [48] [48] [91; 118; 93]; ln [98; 48] [99; 48] [48] [52; 51] [47; 98] ].
Definition d_parsed : list mline :=
  [ Mline 64 80 0 8 1 42 [47; 97]; Mline 80 96 1 8 1 42 [47; 97]; Mline 96 112 0 8 1 0 [91; 104; 93];
    Mline 112 128 0 8 1 43 [47; 98]; Mline 144 160 0 8 1 0 [91; 118; 93]; Mline 176 192 0 8 1 43 [47; 98] ].
Lemma d_ok : Forall2 (fun t l => parse_line (chop t) = Some l) d_lines d_parsed.
Proof. repeat (constructor; [vm_compute; reflexivity|]). constructor. Qed.

(* A line as the kernel writes it is read as written: start, end, offset, device, inode and the name after any blanks. *)
Theorem C88_line : forall sa a sb b w so o smj mj smn mn si i bl name,
  writes 16 sa a -> writes 16 sb b -> word w -> writes 16 so o -> writes 16 smj mj -> writes 16 smn mn -> writes 10 si i ->
  (si = [48] \/ hd 0 si <> 48) -> a < 2 ^ 64 -> b < 2 ^ 64 -> o < 2 ^ 64 -> mj < 2 ^ 32 -> mn < 2 ^ 32 -> i < 2 ^ 64 ->
  blank bl -> (name = [] \/ (bl <> [] /\ is_ws (hd 32 name) = false)) ->
  parse_line (chop ((sa ++ [45] ++ sb ++ [32] ++ w ++ [32] ++ so ++ [32] ++ smj ++ [58] ++ smn ++ [32] ++ si ++ bl ++ name) ++ [10])) = Some (Mline a b o mj mn i name).
Proof.
  intros. rewrite chop_line. apply line_text; try assumption; eapply writes_nonneg; try eassumption; lia.
Qed.
Print Assumptions C88_line.
Example C88_line_nonvacuous : parse_line (chop (ln [55; 102; 48] [55; 102; 102] [49; 48] [49; 48; 57] [47; 97; 32; 98])) = Some (Mline 2032 2047 16 8 1 109 [47; 97; 32; 98]).
Proof. vm_compute. reflexivity. Qed.

(* If every line can be read, the names of each file agree and every report works: the result is that of the end of
   the input, and the modules are one for the special mapping and one for each largest run of lines of one file,
   where lines without a file do not interrupt a run.  A module has the name and the start of the first and the end of
   the last line of its run. *)
Theorem C88_maps : forall vdso vname stop ts ls is, Forall2 (fun t l => parse_line (chop t) = Some l) ts ls -> items_of vdso ls is -> names_agree ls ->
  exists gs, proc_maps_report (fun _ => true) vdso vname stop ts = (stop, map (module_of vname) gs) /\
    concat gs = is /\ Forall one_module gs /\ Forall (one_name vname) gs /\ apart gs.
Proof.
  intros vdso vname stop ts ls is F2 I NA. unfold proc_maps_report.
  destruct (loop_ok (fun _ => true) vdso vname stop (fun _ => eq_refl) ts ls F2 is I [] start_state [] [] (start_stands vname) start_closed) as [(out & E & x & y & X & Y & K & N)|(s' & gs & pend & E & S & CL & C)].
  - exfalso. cbn [concat app] in X, Y. apply N. destruct (items_file _ _ _ I x X), (items_file _ _ _ I y Y). apply NA; assumption.
  - rewrite app_nil_r in E. unfold start_state in E. rewrite E. cbn [maps_loop].
    destruct (do_report (fun _ => true) s') as [b s''] eqn:ER. destruct (report_ok _ _ _ _ _ _ _ S ER (fun _ => eq_refl)) as [-> (O & M & N & A & _)].
    exists (gs ++ match pend with [] => [] | _ => [pend] end). split.
    + rewrite O. destruct (stop =? 0) eqn:Z0; cbn [negb]; [apply Z.eqb_eq in Z0; subst; reflexivity|reflexivity].
    + split; [rewrite concat_app; cbn [concat app] in C; rewrite <- C; destruct pend; cbn [concat]; rewrite ?app_nil_r; reflexivity|]. rewrite app_nil_r in A. auto.
Qed.
Print Assumptions C88_maps.
Example C88_maps_nonvacuous : proc_maps_report (fun _ => true) 144 [91; 118; 58; 49; 93] 0 d_lines =
  (0, [([47; 97], 64, 96); ([47; 98], 112, 128); ([91; 118; 58; 49; 93], 144, 160); ([47; 98], 176, 192)]) /\
  Forall2 (fun t l => parse_line (chop t) = Some l) d_lines d_parsed /\ names_agree d_parsed.
Proof.
  split; [vm_compute; reflexivity|]. split; [exact d_ok|].
  intros x y X Y [(rx & FX) _] [(ry & FY) _] K. cbn in X, Y. unfold key_of in K. repeat (destruct X as [<-|X]); try destruct X; repeat (destruct Y as [<-|Y]); try destruct Y; cbn in *; congruence.
Qed.

(* What the lines stand for always exists, and the runs are determined by it. *)
Theorem C88_unique : forall vdso ls, (exists is, items_of vdso ls is) /\
  forall gs gs', Forall one_module gs -> Forall one_module gs' -> apart gs -> apart gs' -> concat gs = concat gs' -> gs = gs'.
Proof. intros vdso ls. split; [apply items_total|apply groups_unique]. Qed.
Print Assumptions C88_unique.
Example C88_unique_nonvacuous : apart [[F (Mline 64 80 0 8 1 42 [47; 97]); F (Mline 80 96 1 8 1 42 [47; 97])]; [V 144 160]; [F (Mline 176 192 0 8 1 42 [47; 97])]].
Proof.
  intros a g h b E. destruct a as [|a0 a]; [injection E as <- <- _; right; discriminate|]. destruct a as [|a1 a]; [injection E as _ <- <- _; left; reflexivity|].
  destruct a as [|a2 a]; [discriminate E|]. destruct a; discriminate E.
Qed.

(* Lines in ascending order give modules in ascending order that do not overlap, and each line of a module lies in it. *)
Theorem C88_sorted : forall vdso vname stop ts ls is low, Forall2 (fun t l => parse_line (chop t) = Some l) ts ls -> items_of vdso ls is -> names_agree ls ->
  ascending low (map (fun l => (m_start l, m_end l)) ls) -> Forall (fun l => ~ (special_line vdso l /\ file_line l)) ls ->
  exists gs, proc_maps_report (fun _ => true) vdso vname stop ts = (stop, map (module_of vname) gs) /\ concat gs = is /\
    ascending low (map (fun m : modl => (snd (fst m), snd m)) (map (module_of vname) gs)) /\
    Forall (fun g => Forall (fun x => snd (fst (module_of vname g)) <= start_of x /\ start_of x <= end_of x /\ end_of x <= snd (module_of vname g)) g) gs.
Proof.
  intros vdso vname stop ts ls is low F2 I NA AS ND. destruct (C88_maps vdso vname stop ts ls is F2 I NA) as (gs & E & C & M & _).
  exists gs. split; [exact E|]. split; [exact C|]. apply ascending_groups; [exact M|]. rewrite C. exact (ascending_items _ _ _ I ND low AS).
Qed.
Print Assumptions C88_sorted.
Example C88_sorted_nonvacuous : ascending 0 (map (fun l => (m_start l, m_end l)) d_parsed) /\ Forall (fun l => ~ (special_line 144 l /\ file_line l)) d_parsed.
Proof.
  split; [cbn; lia|]. unfold special_line, file_line. repeat (apply Forall_cons; [intros [(A & _) ((r & B) & _)]; cbn in A, B; congruence|]). apply Forall_nil.
Qed.

(* A line that cannot be read ends the report with ENOEXEC; the complete runs before it were reported, the last run
   perhaps not. *)
Theorem C88_bad_line : forall vdso vname stop ts ls is t rest, Forall2 (fun t l => parse_line (chop t) = Some l) ts ls -> items_of vdso ls is -> names_agree ls ->
  parse_line (chop t) = None ->
  exists gs pend, proc_maps_report (fun _ => true) vdso vname stop (ts ++ t :: rest) = (ENOEXEC, map (module_of vname) gs) /\
    concat gs ++ pend = is /\ Forall one_module gs /\ apart gs /\ (pend = [] \/ exists k, same_file k pend).
Proof.
  intros vdso vname stop ts ls is t rest F2 I NA B. unfold proc_maps_report.
  destruct (loop_ok (fun _ => true) vdso vname stop (fun _ => eq_refl) ts ls F2 is I (t :: rest) start_state [] [] (start_stands vname) start_closed) as [(out & E & x & y & X & Y & K & N)|(s' & gs & pend & E & S & CL & C)].
  - exfalso. cbn [concat app] in X, Y. apply N. destruct (items_file _ _ _ I x X), (items_file _ _ _ I y Y). apply NA; assumption.
  - unfold start_state in E. rewrite E. cbn [maps_loop]. rewrite B. destruct S as (O & M & N & A & P). exists gs, pend. rewrite O. split; [reflexivity|]. split; [exact C|]. split; [exact M|].
    split; [exact (apart_prefix _ _ A)|]. destruct P as [(-> & _)|(SF & _)]; [left; reflexivity|right; eauto].
Qed.
Print Assumptions C88_bad_line.
Example C88_bad_line_nonvacuous : parse_line (chop [52; 48; 32; 10]) = None /\ proc_maps_report (fun _ => true) 144 [] 0 (d_lines ++ [[52; 48; 32; 10]]) = (8, [([47; 97], 64, 96); ([47; 98], 112, 128); ([], 144, 160)]).
Proof. split; vm_compute; reflexivity. Qed.

(* The report succeeds exactly if it would succeed were every single report to work and each of the modules is
   accepted. *)
Theorem C88_success : forall ok vdso vname ts out,
  proc_maps_report ok vdso vname 0 ts = (0, out) <-> proc_maps_report (fun _ => true) vdso vname 0 ts = (0, out) /\ Forall (fun m => ok m = true) out.
Proof.
  intros ok vdso vname ts out. unfold proc_maps_report. split.
  - intros E. exact (loop_agree ok vdso vname ts _ out E (Forall_nil _)).
  - intros [E F0]. exact (loop_back ok vdso vname ts _ out E F0).
Qed.
Print Assumptions C88_success.
Example C88_success_nonvacuous : proc_maps_report (fun m => snd (fst m) <? 150) 144 [] 0 d_lines = (-1, [([47; 97], 64, 96); ([47; 98], 112, 128); ([], 144, 160)]).
Proof. vm_compute. reflexivity. Qed.

(* One file under two names, next to each other: two hard links mapped by one process.  The report fails and the
   modules after it are missing, although no line is wrong. *)
Theorem C88_links_refuted : exists ts ls, Forall2 (fun t l => parse_line (chop t) = Some l) ts ls /\ ascending 0 (map (fun l => (m_start l, m_end l)) ls) /\ Forall file_line ls /\
  proc_maps_report (fun _ => true) 0 [] 0 ts = (-1, []).
Proof.
  exists [ln [52; 48] [53; 48] [48] [52; 50] [47; 97]; ln [53; 48] [54; 48] [48] [52; 50] [47; 98]; ln [55; 48] [56; 48] [48] [52; 51] [47; 99]].
  exists [Mline 64 80 0 8 1 42 [47; 97]; Mline 80 96 0 8 1 42 [47; 98]; Mline 112 128 0 8 1 43 [47; 99]].
  split; [repeat (constructor; [vm_compute; reflexivity|]); constructor|]. split; [cbn; lia|].
  split; [repeat (apply Forall_cons; [split; [eexists; reflexivity|cbn; lia]|]); apply Forall_nil|]. vm_compute. reflexivity.
Qed.
Print Assumptions C88_links_refuted.

(* ---- the auxiliary vector ---- *)
(* The file of the auxiliary vector, of any length, is read as entries of the 64-bit and of the 32-bit size.  A reading
   counts if it has the special mapping or changes the page size.  If one counts, its last values are taken; if both
   do, those of the class of the executable; otherwise the result is ENOEXEC and nothing changes. *)
Theorem C88_auxv : forall dec f errno cl align fuel, zlen f < 1024 * Z.of_nat fuel ->
  exists v64 p64 v32 p32, reading dec 8 f align v64 p64 /\ reading dec 4 f align v32 p32 /\
  let c64 := v64 <> 0 \/ p64 <> align in let c32 := v32 <> 0 \/ p32 <> align in
  let result := grovel_auxv fuel dec (fun o => Some (zsub f o 1024)) errno cl align in
  (c64 /\ (~ c32 \/ cl = 2) -> result = Ok (0, v64, p64)) /\ (c32 /\ (~ c64 \/ cl = 1) -> result = Ok (0, v32, p32)) /\
  ((~ c64 /\ ~ c32) \/ (c64 /\ c32 /\ cl <> 1 /\ cl <> 2) -> result = Ok (ENOEXEC, 0, align)).
Proof.
  intros dec f errno cl align fuel L. pose proof (reading_ok dec 8 f align ltac:(lia)) as R64. pose proof (reading_ok dec 4 f align ltac:(lia)) as R32.
  unfold grovel_auxv. rewrite (auxv_ok dec f fuel 0 (0, align) (0, align)) by (pose proof (zlen_nonneg _ f); lia). cbn [Z.to_nat skipn obind].
  destruct (entries (length f) dec 8 f (0, align)) as [v64 p64]. destruct (entries (length f) dec 4 f (0, align)) as [v32 p32]. cbn [fst snd] in *.
  exists v64, p64, v32, p32. split; [exact R64|]. split; [exact R32|]. cbv zeta. clear R64 R32.
  destruct (negb (v64 =? 0) || negb (p64 =? align)) eqn:A; destruct (negb (v32 =? 0) || negb (p32 =? align)) eqn:B; cbn [andb negb orb].
  - split; [|split]; intros H.
    + replace (cl =? 2) with true by lia. reflexivity.
    + replace (cl =? 2) with false by lia. replace (cl =? 1) with true by lia. reflexivity.
    + replace (cl =? 2) with false by lia. replace (cl =? 1) with false by lia. reflexivity.
  - split; [|split]; intros H; [reflexivity|lia|lia].
  - split; [|split]; intros H; [lia|reflexivity|lia].
  - split; [|split]; intros H; [lia|lia|reflexivity].
Qed.
Print Assumptions C88_auxv.
Definition d_aux : bytes := le_bytes 8 6 ++ le_bytes 8 4096 ++ le_bytes 8 33 ++ le_bytes 8 1048576 ++ le_bytes 8 0 ++ le_bytes 8 0.
Example C88_auxv_nonvacuous : grovel_auxv 2 le_value (fun o => Some (zsub d_aux o 1024)) 5 2 0 = Ok (0, 1048576, 4096).
Proof. vm_compute. reflexivity. Qed.

(* An error of read ends it with that error. *)
Theorem C88_auxv_error : forall dec rd errno cl align fuel, rd 0 = None -> grovel_auxv (S fuel) dec rd errno cl align = Ok (errno, 0, align).
Proof. intros dec rd errno cl align fuel E. unfold grovel_auxv. cbn [auxv_loop]. rewrite E. reflexivity. Qed.
Print Assumptions C88_auxv_error.
Example C88_auxv_error_nonvacuous : grovel_auxv 1 le_value (fun _ => None) 13 2 0 = Ok (13, 0, 0).
Proof. reflexivity. Qed.

(* The same 64-bit process reported twice, when it has no special mapping: the first time the page size is found.  The
   second time the 64-bit reading no longer counts, since the page size is the one known; the 32-bit reading of
   the same bytes counts, and the segment alignment becomes 0. *)
Theorem C88_again_refuted : exists f, let call := grovel_auxv 2 le_value (fun o => Some (zsub f o 1024)) 0 2 in
  call 0 = Ok (0, 0, 4096) /\ call 4096 = Ok (0, 0, 0).
Proof. exists (le_bytes 8 6 ++ le_bytes 8 4096 ++ le_bytes 8 0 ++ le_bytes 8 0). vm_compute. split; reflexivity. Qed.
Print Assumptions C88_again_refuted.
