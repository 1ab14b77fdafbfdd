(* C100: giving up the file descriptor of a handle. *)
From Verif Require Import Base ElfErr OpenProof CntlModel.

(* The specification: the handle reached from h by taking the i-th member, and so on; members lie inside their archive and only archives have any *)
Fixpoint node (h : eh) (p : list nat) : option eh := match p with [] => Some h | i :: q => match nth_error (h_ch h) i with Some c => node c q | None => None end end.
Definition within (lo hi : Z) (h : eh) : Prop := lo <= h_start h /\ 0 <= h_max h /\ h_start h + h_max h <= hi.
(* for every handle on the way: not in memory yet, and inside the one before *)
Fixpoint plain_path (lo hi : Z) (h : eh) (p : list nat) : Prop :=
  h_mp h = None /\ within lo hi h /\ (h_ar h = false -> h_ch h = []) /\
  match p with [] => True | i :: q => forall c, nth_error (h_ch h) i = Some c -> plain_path (h_start h) (h_start h + h_max h) c q end.

Lemma set_ok file o len : 0 <= o -> o + len <= zlen file -> forall p h lo hi d, o <= lo -> hi <= o + len -> plain_path lo hi h p -> node h p = Some d ->
  exists d', node (set_address (zsub file o len) o h) p = Some d' /\ h_fd d' = h_fd d /\ h_max d' = h_max d /\ h_ar d' = h_ar d /\ (h_ar d = true -> h_aroff d' - h_start d' = h_aroff d - h_start d) /\ h_mp d' <> None /\
    forall file' off n, 0 <= off -> 0 <= n -> off + n <= h_max d -> view file' d' off n = Some (zsub file (h_start d + off) n).
Proof.
  intros O L. induction p as [|i q IH]; intros h lo hi d B1 B2 P N; destruct h as [fd mp st mx ao ar ch]; cbn [plain_path h_mp h_start h_max h_ar h_ch within] in P; destruct P as (-> & (W1 & W2 & W3) & A & P); unfold within in *; cbn [h_start h_max] in *.
  - injection N as <-. cbn [set_address node]. eexists; split; [reflexivity|]. cbn [h_fd h_max h_ar h_aroff h_start h_mp]. repeat (split; [reflexivity|]). split; [destruct ar; [lia | discriminate]|]. split; [discriminate|].
    intros file' off n F1 F2 F3. unfold view. cbn [h_mp h_start]. assert (Zl : zlen (zsub file o len) = len) by (unfold zsub, zlen in *; rewrite firstn_length, skipn_length; lia).
    rewrite Zl. replace (st - o + off + n <=? len) with true by lia. f_equal. rewrite zsub_zsub by lia. f_equal. lia.
  - cbn [node h_ch] in N. destruct (nth_error ch i) as [c|] eqn:E; [|discriminate]. destruct ar; [|rewrite A in E by reflexivity; destruct i; discriminate E].
    destruct (IH c st (st + mx) d ltac:(lia) ltac:(lia) (P c eq_refl) N) as (d' & D & R). exists d'. split; [|exact R]. cbn [set_address node h_ch]. rewrite nth_error_map, E. exact D.
Qed.

(* After elf_cntl (ELF_C_FDREAD) has said that it is done, the handle, and every handle of a member (or of a member of a member) open at that time, gives the same bytes as before at all places
   inside it, whatever becomes of the descriptor: file' is what it gives then. *)
Theorem C100_fdread_partial : forall file h h' p d, 0 <= h_start h -> plain_path (h_start h) (h_start h + h_max h) h p -> node h p = Some d -> elf_cntl file h Fdread = (0, h') ->
  exists d', node h' p = Some d' /\ h_max d' = h_max d /\ (h_ar d = true -> h_aroff d' - h_start d' = h_aroff d - h_start d) /\
    forall file' off n, 0 <= off -> 0 <= n -> off + n <= h_max d -> view file' d' off n = Some (zsub file (h_start d + off) n) /\ (h_fd d <> -1 -> view file d off n = Some (zsub file (h_start d + off) n)).
Proof.
  intros file h h' p d S P N C. unfold elf_cntl in C. destruct (h_fd h =? -1) eqn:F; [discriminate|]. unfold readall in C.
  assert (M : h_mp h = None) by (destruct p; apply P). rewrite M, F in C. destruct (zlen file <? h_start h + h_max h) eqn:L; [discriminate|]. injection C as <-.
  destruct (set_ok file (h_start h) (h_max h) S ltac:(lia) p h _ _ d (Z.le_refl _) (Z.le_refl _) P N) as (d' & D & _ & D2 & _ & D4 & D5 & D6).
  assert (V : forall off n, 0 <= off -> 0 <= n -> off + n <= h_max d -> h_fd d <> -1 -> view file d off n = Some (zsub file (h_start d + off) n)).
  { intros off n O1 O2 O3 FD.
    assert (K : forall p h lo hi, plain_path lo hi h p -> node h p = Some d -> h_mp d = None /\ h_start d + h_max d <= hi).
    { clear. induction p as [|i q IH]; intros h lo hi P N; cbn [plain_path node] in *.
      - injection N as ->. destruct P as (A & (B1 & B2 & B3) & _). auto.
      - destruct P as (_ & (B1 & B2 & B3) & _ & P). destruct (nth_error (h_ch h) i) as [c|]; [|discriminate]. destruct (IH c _ _ (P c eq_refl) N). split; [assumption | lia]. }
    destruct (K _ _ _ _ P N) as (K1 & K2). unfold view. rewrite K1. replace (h_fd d =? -1) with false by lia. replace (h_start d + off + n <=? zlen file) with true by lia. reflexivity. }
  destruct p as [|i q].
  - exists (close_fd d'). cbn [node] in *. injection D as D. rewrite D. destruct d' as [fd mp st mx ao ar ch]. cbn [close_fd h_max h_start h_aroff] in *. split; [reflexivity|]. split; [exact D2|]. split; [exact D4|].
    intros file' off n O1 O2 O3. split; [|apply V; auto]. specialize (D6 file' off n O1 O2 O3). unfold view in *. cbn [h_mp h_start h_fd] in *. destruct mp; [exact D6 | congruence].
  - exists d'. split; [|split; [exact D2|]; split; [exact D4|]; intros file' off n O1 O2 O3; split; [apply D6; assumption | apply V; assumption]].
    revert D. cbn [node]. destruct (set_address _ _ h) as [fd mp st mx ao ar ch]. cbn [close_fd h_ch]. auto.
Qed.
Print Assumptions C100_fdread_partial.

(* An archive of 9 bytes at 1 in the file, with a member of 4 bytes at 3 that is an archive with a member of 2 bytes at 4 *)
Definition tree : eh := Eh 5 None 1 9 6 true [Eh 5 None 3 4 5 true [Eh 5 None 4 2 0 false []]].
Definition tfile : bytes := [10; 11; 12; 13; 14; 15; 16; 17; 18; 19; 20].
Example C100_fdread_nonvacuous : plain_path 1 10 tree [0%nat; 0%nat] /\ node tree [0%nat; 0%nat] = Some (Eh 5 None 4 2 0 false []) /\
  elf_cntl tfile tree Fdread = (0, Eh (-1) (Some (zsub tfile 1 9)) 0 9 5 true [Eh 5 (Some (zsub tfile 1 9)) 2 4 4 true [Eh 5 (Some (zsub tfile 1 9)) 3 2 0 false []]]) /\
  view [] (Eh 5 (Some (zsub tfile 1 9)) 3 2 0 false []) 0 2 = Some [14; 15].
Proof.
  split; [|split; [reflexivity|]; split; vm_compute; reflexivity].
  repeat (cbn; unfold within; cbn; split; [reflexivity|]; split; [lia|]; split; [discriminate || reflexivity|]; (exact I || (intros c E; injection E as <-))).
Qed.

(* A call that fails leaves the handle as it was; one that is done leaves it without a descriptor, and a later call fails. *)
Theorem C100_result : forall file h c r h', elf_cntl file h c = (r, h') -> (r = -1 /\ h' = h) \/ (r = 0 /\ h_fd h <> -1 /\ c <> Othercmd /\ h_fd h' = -1 /\ forall file' c', elf_cntl file' h' c' = (-1, h')).
Proof.
  intros file h c r h' E. unfold elf_cntl in E. destruct (h_fd h =? -1) eqn:F; [injection E as <- <-; auto|].
  assert (K : forall x, h_fd (close_fd x) = -1) by (intros [fd mp st mx ao ar ch]; reflexivity).
  assert (K' : forall x file' c', elf_cntl file' (close_fd x) c' = (-1, close_fd x)) by (intros x file' c'; unfold elf_cntl; rewrite K; reflexivity).
  destruct c.
  - destruct (readall file h); injection E as <- <-; auto. right. repeat split; auto; try lia. discriminate.
  - injection E as <- <-. right. repeat split; auto; try lia. discriminate.
  - injection E as <- <-. auto.
Qed.
Print Assumptions C100_result.

(* ELF_C_FDREAD fails only if the descriptor has less than the handle should have, and the handle is then as before; it does not fail for a file in memory. *)
Theorem C100_fdread_fails : forall file h, h_fd h <> -1 -> (fst (elf_cntl file h Fdread) = -1 <-> h_mp h = None /\ zlen file < h_start h + h_max h).
Proof.
  intros file h F. unfold elf_cntl, readall. replace (h_fd h =? -1) with false by lia. destruct (h_mp h); cbn [fst]; [split; [discriminate | intros (A & _); discriminate A]|].
  destruct (zlen file <? h_start h + h_max h) eqn:L; cbn [fst]; split; try discriminate; intros; [split; [reflexivity | lia] | reflexivity | lia].
Qed.
Print Assumptions C100_fdread_fails.

(* ELF_C_FDDONE on an archive takes the descriptor away from its handle only: the handles of members go on reading from it, whatever it has become. *)
Theorem C100_fddone_refuted : forall file file' h h' i d, elf_cntl file h Fddone = (0, h') -> nth_error (h_ch h) i = Some d -> h_mp h = None -> h_mp d = None -> h_fd d <> -1 ->
  nth_error (h_ch h') i = Some d /\ (forall off n, view file' h' off n = None) /\ forall off n, h_start d + off + n <= zlen file' -> view file' d off n = Some (zsub file' (h_start d + off) n).
Proof.
  intros file file' [fd mp st mx ao ar ch] h' i d E N M Md Fd. unfold elf_cntl in E. cbn [h_fd] in E. destruct (fd =? -1); [discriminate|]. injection E as <-. cbn [h_ch h_mp close_fd] in *. subst mp. split; [exact N|]. split.
  - intros off n. reflexivity.
  - intros off n L. unfold view. rewrite Md. replace (h_fd d =? -1) with false by lia. replace (h_start d + off + n <=? zlen file') with true by lia. reflexivity.
Qed.
Print Assumptions C100_fddone_refuted.

(* The archive above: reading it when the file is cut fails; a second call fails; after FDDONE a member reads what the descriptor then gives *)
Example C100_result_nonvacuous : fst (elf_cntl (firstn 9 tfile) tree Fdread) = -1 /\ fst (elf_cntl tfile tree Fddone) = 0 /\ fst (elf_cntl tfile (snd (elf_cntl tfile tree Fdread)) Fdread) = -1.
Proof. vm_compute. auto. Qed.
Example C100_fddone_nonvacuous : exists h', elf_cntl tfile tree Fddone = (0, h') /\ view tfile h' 0 1 = None /\ exists d, nth_error (h_ch h') 0 = Some d /\ view [0; 0; 0; 77; 78] d 0 2 = Some [77; 78] /\ view tfile d 0 2 = Some [13; 14].
Proof. eexists. split; [vm_compute; reflexivity|]. split; [reflexivity|]. eexists. split; [reflexivity|]. vm_compute. auto. Qed.

(* elf_rawfile gives the bytes of the file that belong to the handle and their number, for a handle that is not in memory; the handle is then in memory and a second call gives the same
   whatever the descriptor gives by then. *)
Theorem C100_rawfile_partial : forall file h, 0 <= h_start h -> 0 <= h_max h -> h_mp h = None -> h_fd h <> -1 -> h_start h + h_max h <= zlen file ->
  exists h', elf_rawfile file h = Ok (zsub file (h_start h) (h_max h), h_max h, h') /\ forall file', elf_rawfile file' h' = Ok (zsub file (h_start h) (h_max h), h_max h, h').
Proof.
  intros file [fd mp st mx ao ar ch] S M P F L. cbn [h_start h_max h_mp h_fd] in *. subst mp. unfold elf_rawfile, readall. cbn [h_start h_max h_mp h_fd]. replace (fd =? -1) with false by lia.
  replace (zlen file <? st + mx) with false by lia. cbn [set_address h_mp h_start h_max]. rewrite (Z.sub_diag st). rewrite zsub_zsub by lia. rewrite Z.add_0_r. eexists. split; [reflexivity|].
  intros file'. cbn [h_mp h_start h_max]. rewrite zsub_zsub by lia. rewrite Z.add_0_r. reflexivity.
Qed.
Print Assumptions C100_rawfile_partial.
(* Reading an archive into memory leaves the place of each member in it (elf_getaroff) as it was. *)
Theorem C100_getaroff_partial : forall file h b n h' i c, h_mp h = None -> h_ar h = true -> elf_rawfile file h = Ok (b, n, h') -> nth_error (h_ch h) i = Some c -> h_mp c = None ->
  exists c', nth_error (h_ch h') i = Some c' /\ elf_getaroff h' c' = elf_getaroff h c.
Proof.
  intros file [fd mp st mx ao ar ch] b n h' i [cfd cmp cst cmx cao car cch] M A E N C. cbn [h_mp h_ar h_ch] in *. subst mp ar cmp. unfold elf_rawfile, readall in E. cbn [h_start h_max h_mp h_fd] in E.
  destruct (fd =? -1); [discriminate|]. destruct (zlen file <? st + mx); [discriminate|]. cbn [set_address h_mp h_start h_max] in E. injection E as _ _ <-. cbn [h_ch]. rewrite nth_error_map, N. cbn [option_map]. eexists. split; [reflexivity|].
  unfold elf_getaroff. cbn [set_address h_start]. lia.
Qed.
Print Assumptions C100_getaroff_partial.
(* Reading a member into memory by itself makes elf_getaroff of it wrong, for every member of every archive: it becomes negative, and elf_getbase of the member becomes 0. *)
Theorem C100_getaroff_refuted : forall file parent h b n h', 0 <= h_start parent -> h_mp h = None -> elf_rawfile file h = Ok (b, n, h') -> elf_getaroff parent h' = - 60 - h_start parent /\ elf_getbase h' = 0.
Proof.
  intros file parent [fd mp st mx ao ar ch] b n h' S M E. cbn [h_mp] in M. subst mp. unfold elf_rawfile, readall in E. cbn [h_start h_max h_mp h_fd] in E.
  destruct (fd =? -1); [discriminate|]. destruct (zlen file <? st + mx); [discriminate|]. cbn [set_address h_mp h_start h_max] in E. injection E as _ _ <-. unfold elf_getaroff, elf_getbase. cbn [h_start]. lia.
Qed.
Print Assumptions C100_getaroff_refuted.
(* The second member of an archive, at 68 + 60 *)
Example C100_getaroff_nonvacuous : let m := Eh 5 None 128 2 0 false [] in let a := Eh 5 None 0 130 68 true [m] in let f := repeat 7 128 ++ [1; 2] in
  elf_getaroff a m = 68 /\ (exists m', elf_rawfile f m = Ok ([1; 2], 2, m') /\ elf_getaroff a m' = -60) /\
  exists b n a' m', elf_rawfile f a = Ok (b, n, a') /\ n = 130 /\ b = f /\ nth_error (h_ch a') 0 = Some m' /\ elf_getaroff a' m' = 68.
Proof. intros m a f. split; [reflexivity|]. split; [eexists; split; vm_compute; reflexivity|]. do 4 eexists. repeat split; vm_compute; reflexivity. Qed.
