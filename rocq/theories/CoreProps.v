(* C91: the memory of a process read from its core file. *)
From Coq Require Import Sorting.Sorted.
From Verif Require Import Base RemProof CoreModel CoreSpec CoreProof.

(* what the search for bytes comes to: the segment, where its bytes start in the file, and where the bytes found end *)
Lemma memory_inv : forall align phdrs file mapd ndx vaddr minread fresh avail c p,
  0 < align -> Forall (good_ph align) phdrs -> in_order phdrs -> In p (skipn ndx phdrs) -> inside p vaddr ->
  memory align phdrs file mapd ndx vaddr minread fresh avail = Some c ->
  let st := c_off p + (vaddr - c_vaddr p) in
  exists e, 0 <= st < e /\ st < zlen file /\ (minread <= e - st) /\
    (forall o, st <= o < e -> exists g, In g phdrs /\ c_load g = true /\ c_off g <= o < c_off g + c_filesz g /\ c_vaddr g - c_off g = c_vaddr p - c_off p) /\
    (exists n b t, b = zsub file st n /\ b = c ++ t /\ (mapd = true -> n <= e - st) /\
       (minread = 0 -> fresh = true \/ mapd = false -> string_of b = Some c)) /\
    (fresh = false -> 0 <= avail -> zlen c <= avail).
Proof.
  intros align phdrs file mapd ndx vaddr minread fresh avail c p Ha G O I N E st. unfold memory in E.
  assert (Gs : Forall (good_ph align) (skipn ndx phdrs)) by (apply Forall_forall; intros x Hx; rewrite Forall_forall in G; exact (G x (in_skipn _ _ _ _ Hx))).
  pose proof (order_skipn ndx phdrs O) as Os.
  destruct (first_ok align Ha _ vaddr p Gs Os I N) as (r & Ef & pre & Ep). rewrite Ef in E.
  assert (Gp : good_ph align p) by (rewrite Forall_forall in Gs; exact (Gs p I)).
  destruct N as (L & Nv). destruct (Gp L) as (G1 & G2 & G3 & G4 & G5 & _). destruct (good_end align Ha p Gp L) as (R1 & R2).
  assert (Es : u64 (u64 (vaddr - c_vaddr p) + c_off p) = st).
  { unfold u64. change two64 with (2 ^ 64). rewrite (Z.mod_small (vaddr - c_vaddr p)) by lia. rewrite Z.mod_small by lia. unfold st. lia. }
  rewrite Es in E. unfold update_end, more in E. cbn [k_rest k_cur k_end k_endv] in E. rewrite R1, R2 in E.
  assert (I0 : inv align phdrs (c_off p) (c_vaddr p - c_off p) r p (c_off p + c_filesz p) (c_vaddr p + c_memsz p)).
  { rewrite Ep in Os, Gs. apply order_app in Os. destruct (StronglySorted_inv Os) as (Or & F). rewrite Forall_forall in F. constructor.
    - intros o Ho. exists p. split; [exact (in_skipn _ _ _ _ I)|]. split; [exact L|]. split; lia.
    - intros y Hy Ly. exact (F y Hy L Ly).
    - destruct (Z.lt_ge_cases (c_filesz p) (c_memsz p)); [left; lia | right; lia].
    - apply Forall_forall. intros y Hy. rewrite Forall_forall in Gs. apply Gs. apply in_app_iff. right. right. exact Hy.
    - exact Or.
    - intros y Hy. apply (in_skipn _ ndx). rewrite Ep. apply in_app_iff. right. right. exact Hy. }
  destruct (do_more align r p _ _ st minread) as [[|] s1] eqn:M1; [|discriminate].
  destruct (do_more_ok align phdrs Ha _ _ _ _ _ _ _ _ _ _ I0 M1) as (I1 & E1 & K1). specialize (K1 eq_refl).
  destruct (do_more align (k_rest s1) (k_cur s1) (k_end s1) (k_endv s1) st avail) as [ok2 s2] eqn:M2.
  destruct (do_more_ok align phdrs Ha _ _ _ _ _ _ _ _ _ _ I1 M2) as (I2 & E2 & _).
  set (s3 := if mapd then snd (do_more align (k_rest s2) (k_cur s2) (k_end s2) (k_endv s2) st (u64 (zlen file - st))) else s2) in E.
  assert (I3 : inv align phdrs (c_off p) (c_vaddr p - c_off p) (k_rest s3) (k_cur s3) (k_end s3) (k_endv s3) /\ k_end s2 <= k_end s3).
  { unfold s3. destruct mapd; [|split; [exact I2 | lia]].
    destruct (do_more align (k_rest s2) (k_cur s2) (k_end s2) (k_endv s2) st (u64 (zlen file - st))) as [ok3 s3'] eqn:M3.
    destruct (do_more_ok align phdrs Ha _ _ _ _ _ _ _ _ _ _ I2 M3) as (X & Y & _). split; assumption. }
  destruct I3 as (I3 & E3).
  set (e := if zlen file <? k_end s3 then zlen file else k_end s3) in E.
  assert (He : e <= k_end s3 /\ e <= zlen file) by (unfold e; destruct (Z.ltb_spec (zlen file) (k_end s3)); lia).
  destruct (Z.leb_spec e st) as [C | C]; [discriminate|].
  exists (k_end s3). split; [unfold st; lia|]. split; [lia|]. split; [lia|]. split.
  { intros o Ho. apply (i_bytes _ _ _ _ _ _ _ _ I3). unfold st in Ho. lia. }
  destruct mapd.
  - assert (X : exists z t, zsub file st (e - st) = z ++ t /\ (if minread =? 0 then string_of (zsub file st (e - st)) else Some (zsub file st (e - st))) = Some z).
    { destruct (minread =? 0).
      - destruct (string_of (zsub file st (e - st))) as [z|] eqn:S; [|discriminate]. destruct (string_ok _ _ S) as (s & t & _ & _ & _ & W). exists z, t. split; [exact W | reflexivity].
      - eexists _, []. rewrite app_nil_r. split; reflexivity. }
    destruct X as (z & t & Z1 & Z2). rewrite Z2 in E. split.
    + destruct fresh.
      * injection E as <-. exists (e - st), (zsub file st (e - st)), t. split; [reflexivity|]. split; [exact Z1|]. split; [intros _; lia|].
        intros Hm _. rewrite Hm in Z2. exact Z2.
      * assert (E' : zsub z 0 (Z.min (zlen z) avail) = c) by congruence. unfold zsub in E'. cbn [Z.to_nat skipn] in E'.
        exists (e - st), (zsub file st (e - st)), (skipn (Z.to_nat (Z.min (zlen z) avail)) z ++ t). split; [reflexivity|]. split.
        -- rewrite app_assoc, <- E', firstn_skipn. exact Z1.
        -- split; [intros _; lia|]. intros _ [W | W]; discriminate.
    + intros -> Hav. assert (E' : zsub z 0 (Z.min (zlen z) avail) = c) by congruence. rewrite <- E'. pose proof (zlen_nonneg _ z). rewrite zlen_zsub; lia.
  - set (n := if fresh then _ else avail) in E. destruct (zlen (zsub file st n) <? minread); [discriminate|].
    assert (X : exists t, zsub file st n = c ++ t /\ (minread = 0 -> string_of (zsub file st n) = Some c)).
    { destruct (Z.eqb_spec minread 0) as [Q | Q].
      - destruct (string_ok _ _ E) as (s & t & _ & _ & _ & W). exists t. split; [exact W | intros _; exact E].
      - injection E as E. exists []. rewrite app_nil_r. split; [exact E | intros Q2; destruct (Q Q2)]. }
    destruct X as (t & X1 & X2). split.
    + exists n, (zsub file st n), t. split; [reflexivity|]. split; [exact X1|]. split; [discriminate|]. intros Hm _. exact (X2 Hm).
    + intros -> Hav. assert (W : zlen (zsub file st n) <= avail) by (rewrite zlen_zsub by (unfold st in *; lia); unfold n; lia).
      rewrite X1 in W. rewrite zlen_app in W. pose proof (zlen_nonneg _ t). lia.
Qed.

(* The bytes given are those of memory: all of them if the core file is mapped, else the number that was asked for at least.  A buffer of the caller is
   not overrun. *)
Theorem C91_bytes_partial : forall align phdrs file mapd ndx vaddr minread fresh avail c p,
  0 < align -> Forall (good_ph align) phdrs -> in_order phdrs ->
  In p (skipn ndx phdrs) -> inside p vaddr ->
  memory align phdrs file mapd ndx vaddr minread fresh avail = Some c ->
  (forall k x, znth c k = Some x -> mapd = true \/ k < minread -> holds phdrs file (vaddr + k) x) /\
  (fresh = false -> 0 <= avail -> zlen c <= avail).
Proof.
  intros align phdrs file mapd ndx vaddr minread fresh avail c p Ha G O I N E.
  destruct (memory_inv _ _ _ _ _ _ _ _ _ _ _ Ha G O I N E) as (e & B1 & B2 & B3 & B4 & (n & b & t & Eb & Ec & Hn & _) & B6).
  split; [|exact B6]. set (st := c_off p + (vaddr - c_vaddr p)) in *. intros k x Hk Hm.
  assert (K0 : 0 <= k) by (unfold znth in Hk; destruct ((0 <=? k) && (k <? zlen c)) eqn:W; [lia | discriminate]).
  pose proof (zn_prefix _ c t k x K0 Hk) as Z1. unfold bytes in *. rewrite <- Ec, Eb in Z1. apply zn_zsub in Z1; [|lia|exact K0]. destruct Z1 as (Kn & Z1).
  assert (Ke : st + k < e) by (destruct Hm as [Hm | Hm]; [specialize (Hn Hm); lia | lia]).
  destruct (B4 (st + k) ltac:(lia)) as (g & Ig & Lg & Og & Dg). exists g. split; [exact Ig|]. split; [exact Lg|].
  split; [unfold st in *; lia|]. rewrite <- Z1. f_equal. unfold st. lia.
Qed.
Print Assumptions C91_bytes_partial.

(* What is in the core file is found: if the segment has the bytes asked for, they are given. *)
Theorem C91_found : forall align phdrs file mapd ndx vaddr minread fresh avail p,
  0 < align -> Forall (good_ph align) phdrs -> in_order phdrs ->
  In p (skipn ndx phdrs) -> inside p vaddr ->
  0 < minread -> vaddr + minread <= c_vaddr p + c_filesz p -> c_off p + c_filesz p <= zlen file ->
  (minread <= avail \/ fresh = true /\ (mapd = true \/ minread <= 4096)) ->
  exists c, memory align phdrs file mapd ndx vaddr minread fresh avail = Some c /\ minread <= zlen c.
Proof.
  intros align phdrs file mapd ndx vaddr minread fresh avail p Ha G O I N Hm Hv Hf Hav.
  assert (Gs : Forall (good_ph align) (skipn ndx phdrs)) by (apply Forall_forall; intros x Hx; rewrite Forall_forall in G; exact (G x (in_skipn _ _ _ _ Hx))).
  pose proof (order_skipn ndx phdrs O) as Os. unfold memory.
  destruct (first_ok align Ha _ vaddr p Gs Os I N) as (r & Ef & pre & Ep). rewrite Ef.
  assert (Gp : good_ph align p) by (rewrite Forall_forall in Gs; exact (Gs p I)).
  destruct N as (L & Nv). destruct (Gp L) as (G1 & G2 & G3 & G4 & G5 & _). destruct (good_end align Ha p Gp L) as (R1 & R2).
  set (st := c_off p + (vaddr - c_vaddr p)).
  assert (Es : u64 (u64 (vaddr - c_vaddr p) + c_off p) = st).
  { unfold u64. change two64 with (2 ^ 64). rewrite (Z.mod_small (vaddr - c_vaddr p)) by lia. rewrite Z.mod_small by lia. unfold st. lia. }
  rewrite Es. unfold update_end, more. cbn [k_rest k_cur k_end k_endv]. rewrite R1, R2.
  assert (I0 : inv align phdrs (c_off p) (c_vaddr p - c_off p) r p (c_off p + c_filesz p) (c_vaddr p + c_memsz p)).
  { rewrite Ep in Os, Gs. apply order_app in Os. destruct (StronglySorted_inv Os) as (Or & F). rewrite Forall_forall in F. constructor.
    - intros o Ho. exists p. split; [exact (in_skipn _ _ _ _ I)|]. split; [exact L|]. split; lia.
    - intros y Hy Ly. exact (F y Hy L Ly).
    - destruct (Z.lt_ge_cases (c_filesz p) (c_memsz p)); [left; lia | right; lia].
    - apply Forall_forall. intros y Hy. rewrite Forall_forall in Gs. apply Gs. apply in_app_iff. right. right. exact Hy.
    - exact Or.
    - intros y Hy. apply (in_skipn _ ndx). rewrite Ep. apply in_app_iff. right. right. exact Hy. }
  assert (M1 : do_more align r p (c_off p + c_filesz p) (c_vaddr p + c_memsz p) st minread = (true, Cst r p (c_off p + c_filesz p) (c_vaddr p + c_memsz p))).
  { destruct r; cbn [do_more]; replace ((c_off p + c_filesz p <=? st) || (c_off p + c_filesz p - st <? minread)) with false by (unfold st; lia); reflexivity. }
  rewrite M1. cbn [k_rest k_cur k_end k_endv].
  destruct (do_more align r p (c_off p + c_filesz p) (c_vaddr p + c_memsz p) st avail) as [ok2 s2] eqn:M2.
  destruct (do_more_ok align phdrs Ha _ _ _ _ _ _ _ _ _ _ I0 M2) as (I2 & E2 & _).
  set (s3 := if mapd then _ else s2).
  assert (E3 : k_end s2 <= k_end s3).
  { unfold s3. destruct mapd; [|lia].
    destruct (do_more align (k_rest s2) (k_cur s2) (k_end s2) (k_endv s2) st (u64 (zlen file - st))) as [ok3 s3'] eqn:M3.
    destruct (do_more_ok align phdrs Ha _ _ _ _ _ _ _ _ _ _ I2 M3) as (_ & Y & _). exact Y. }
  set (e := if zlen file <? k_end s3 then zlen file else k_end s3).
  assert (He : c_off p + c_filesz p <= e <= zlen file) by (unfold e; destruct (Z.ltb_spec (zlen file) (k_end s3)); lia).
  assert (Q : 0 <= st /\ st + minread <= e) by (unfold st; lia).
  replace (e <=? st) with false by lia. destruct mapd.
  - replace (minread =? 0) with false by lia. destruct fresh.
    + eexists. split; [reflexivity|]. rewrite zlen_zsub; lia.
    + eexists. split; [reflexivity|]. assert (X : zlen (zsub file st (e - st)) = e - st) by (rewrite zlen_zsub; lia). rewrite zlen_zsub; lia.
  - replace (minread =? 0) with false by lia. set (n := if fresh then _ else avail).
    assert (Nn : minread <= n) by (unfold n; destruct fresh; destruct Hav as [Hav | (Hav & [W | W])]; try discriminate; lia).
    assert (X : minread <= zlen (zsub file st n)) by (rewrite zlen_zsub; lia).
    replace (zlen (zsub file st n) <? minread) with false by lia. exists (zsub file st n). split; [reflexivity | exact X].
Qed.
Print Assumptions C91_found.

(* An address after all segments is not found. *)
Theorem C91_none : forall align phdrs file mapd ndx vaddr minread fresh avail,
  0 < align -> Forall (good_ph align) phdrs ->
  (forall p, In p (skipn ndx phdrs) -> c_load p = true -> c_vaddr p + c_memsz p <= vaddr) ->
  memory align phdrs file mapd ndx vaddr minread fresh avail = None.
Proof.
  intros align phdrs file mapd ndx vaddr minread fresh avail Ha G H. unfold memory.
  assert (Gs : Forall (good_ph align) (skipn ndx phdrs)) by (apply Forall_forall; intros x Hx; rewrite Forall_forall in G; exact (G x (in_skipn _ _ _ _ Hx))).
  rewrite (first_none align Ha _ vaddr Gs H). reflexivity.
Qed.
Print Assumptions C91_none.

(* A string is given whole: it is not empty, and its terminator is its last byte and its only one.  Not so for a buffer of the caller and a mapped core
   file: C91_string_refuted. *)
Theorem C91_string_partial : forall align phdrs file mapd ndx vaddr fresh avail c p,
  0 < align -> Forall (good_ph align) phdrs -> in_order phdrs ->
  In p (skipn ndx phdrs) -> inside p vaddr -> fresh = true \/ mapd = false ->
  memory align phdrs file mapd ndx vaddr 0 fresh avail = Some c ->
  exists s, c = s ++ [0] /\ s <> [] /\ ~ In 0 s.
Proof.
  intros align phdrs file mapd ndx vaddr fresh avail c p Ha G O I N Hm E.
  destruct (memory_inv _ _ _ _ _ _ _ _ _ _ _ Ha G O I N E) as (e & _ & _ & _ & _ & (n & b & t & _ & _ & _ & S0) & _).
  destruct (string_ok _ _ (S0 eq_refl Hm)) as (s & w & H1 & H2 & H3 & _). exists s. split; [exact H1|]. split; assumption.
Qed.
Print Assumptions C91_string_partial.

(* a core file with pages of 4 bytes and two segments next to each other, the second not dumped in full *)
Definition ex_phdrs : list cph := [Cph true 4 100 8 8; Cph false 0 0 3 0; Cph true 12 108 4 8; Cph true 16 200 4 4].
Definition ex_file : bytes := [1; 2; 3; 4; 65; 66; 67; 68; 69; 70; 71; 72; 73; 74; 0; 76; 81; 82; 83; 84].
Example ex_good : Forall (good_ph 4) ex_phdrs /\ in_order ex_phdrs.
Proof.
  split.
  - apply Forall_forall. intros p H. cbn in H. destruct H as [<- | [<- | [<- | [<- | []]]]]; intros L; try discriminate; vm_compute; repeat split; congruence.
  - unfold in_order, ex_phdrs. repeat (apply SSorted_cons || apply SSorted_nil || apply Forall_cons || apply Forall_nil); intros H1 H2; try discriminate; cbn; lia.
Qed.
Example C91_nonvacuous :
  In (Cph true 4 100 8 8) (skipn 0 ex_phdrs) /\ inside (Cph true 4 100 8 8) 104 /\
  memory 4 ex_phdrs ex_file true 0 104 2 true 0 = Some [69; 70; 71; 72; 73; 74; 0; 76] /\
  memory 4 ex_phdrs ex_file true 0 104 2 false 3 = Some [69; 70; 71] /\
  memory 4 ex_phdrs ex_file true 0 104 0 true 0 = Some [69; 70; 71; 72; 73; 74; 0] /\
  memory 4 ex_phdrs ex_file false 0 104 6 true 0 = Some [69; 70; 71; 72; 73; 74] /\
  memory 4 ex_phdrs ex_file true 0 112 2 true 0 = None /\
  memory 4 ex_phdrs ex_file true 0 204 1 true 0 = None.
Proof. vm_compute. repeat split; try congruence. left. reflexivity. Qed.

(* A core file that is cut short and mapped gives less than was asked for, and says that all is well. *)
Theorem C91_short_refuted :
  exists file c, in_order ex_phdrs /\ Forall (good_ph 4) ex_phdrs /\ inside (Cph true 4 100 8 8) 100 /\
    memory 4 ex_phdrs file true 0 100 8 true 0 = Some c /\ zlen c < 8 /\ memory 4 ex_phdrs file false 0 100 8 true 0 = None.
Proof.
  exists (firstn 9 ex_file), [65; 66; 67; 68; 69]. split; [exact (proj2 ex_good)|]. split; [exact (proj1 ex_good)|].
  split; [split; [reflexivity | cbn; lia]|]. repeat split.
Qed.
Print Assumptions C91_short_refuted.

(* An address that no segment holds, before one that does not start the file, gives bytes of another address. *)
Theorem C91_hole_refuted :
  exists c, (forall p, In p ex_phdrs -> ~ inside p 196) /\ memory 4 ex_phdrs ex_file true 0 196 4 true 0 = Some c /\
    ~ (exists x, holds ex_phdrs ex_file 196 x) /\ znth c 0 = znth ex_file 12 /\ holds ex_phdrs ex_file 108 73.
Proof.
  exists [73; 74; 0; 76; 81; 82; 83; 84]. split.
  - intros p H (L & N). cbn in H. destruct H as [<- | [<- | [<- | [<- | []]]]]; cbn in N; lia.
  - split; [reflexivity|]. split.
    + intros (x & p & H & L & N & _). cbn in H. destruct H as [<- | [<- | [<- | [<- | []]]]]; cbn in N; lia.
    + split; [reflexivity|]. exists (Cph true 12 108 4 8). split; [cbn; auto|]. split; [reflexivity|]. split; [cbn; lia | reflexivity].
Qed.
Print Assumptions C91_hole_refuted.

(* A core file that is not mapped fills the buffer of the caller with what follows the segment in the file. *)
Theorem C91_past_refuted :
  exists c, memory 4 ex_phdrs ex_file false 0 108 4 false 8 = Some c /\ znth c 4 = Some 81 /\ ~ (exists x, holds ex_phdrs ex_file (108 + 4) x) /\
    memory 4 ex_phdrs ex_file true 0 108 4 false 8 = Some (zsub c 0 4).
Proof.
  exists [73; 74; 0; 76; 81; 82; 83; 84]. split; [reflexivity|]. split; [reflexivity|]. split; [|reflexivity].
  intros (x & p & H & L & N & _). cbn in H. destruct H as [<- | [<- | [<- | [<- | []]]]]; cbn in N; lia.
Qed.
Print Assumptions C91_past_refuted.

(* A string that is longer than the buffer of the caller is given without its end if the core file is mapped, and not given if it is not. *)
Theorem C91_string_refuted :
  exists c, memory 4 ex_phdrs ex_file true 0 104 0 false 3 = Some c /\ ~ In 0 c /\ memory 4 ex_phdrs ex_file false 0 104 0 false 3 = None.
Proof. exists [69; 70; 71]. split; [reflexivity|]. split; [cbn; lia | reflexivity]. Qed.
Print Assumptions C91_string_refuted.
