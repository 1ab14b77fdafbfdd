(* C86: creating and removing the program header table. *)
From Verif Require Import Base ElfErr PhdrModel PhdrSpec PhdrProof.

Definition empty : file := File false false [].

(* Every history of calls on a file under construction answers as its author expects, and elf_getphdrnum gives
   the number of program headers that the last call that worked asked for. *)
Theorem C86_history : forall c64 ops, Forall (fun o => forall c m, o = NewPhdr c m -> 0 <= c < 2 ^ 64) ops ->
  exists e, run c64 ops fresh = Ok (fst (authors ops empty), e) /\
  (f_ehdr (snd (authors ops empty)) = true -> getphdrnum e = Ok (zlen (f_tab (snd (authors ops empty))))) /\
  (f_tab (snd (authors ops empty)) <> [] -> t_tab e = Some (Heap, f_tab (snd (authors ops empty)))).
Proof.
  intros c64 ops H. destruct (run_ok c64 ops empty fresh (inv_fresh c64) H) as (e & E & I). exists e. split; [exact E|]. split.
  - intros F. apply (phnum_ok c64); auto.
  - intros F. destruct (i_ehdr _ _ _ I) as [(_ & _ & _ & X)|(h & _ & _ & _ & _ & [(_ & X & _)|(l & T & -> & _)])]; [congruence|congruence|exact T].
Qed.
Print Assumptions C86_history.
Example C86_history_nonvacuous :
  let ops := [NewPhdr 2 true; NewEhdr; NewPhdr 2 true; Write 1 [1; 2; 3; 4; 5; 6; 7; 8]; NewPhdr 70000 true; NewScn; NewPhdr 70000 false; NewPhdr (2 ^ 32) true] in
  fst (authors ops empty) = [Refused; Done; Table (zeros 2); Done; Refused; Done; Refused; Refused] /\
  f_tab (snd (authors ops empty)) = [zero_phdr; [1; 2; 3; 4; 5; 6; 7; 8]] /\
  f_tab (snd (authors (ops ++ [NewPhdr 2 false]) empty)) = [zero_phdr; zero_phdr] /\
  zlen (f_tab (snd (authors (ops ++ [NewPhdr 70000 true]) empty))) = 70000 /\
  f_tab (snd (authors (ops ++ [NewPhdr 70000 true; NewPhdr 0 false]) empty)) = [].
Proof. repeat split; vm_compute; reflexivity. Qed.

(* Partial: any file, not only one under construction, but with a table that is in malloc'ed memory (or not read),
   a header whose e_phentsize is right and room for section zero; the refutations below show what happens without.
   The call fails and changes nothing, or gives a cleared table of the size asked for. *)
Theorem C86_new_partial : forall c64 alloc e h c r e', t_kind e = true -> t_class e = cls c64 -> t_ehdr e = Some h -> 0 < c < 2 ^ 32 -> 0 < t_max e -> 0 <= t_cnt e ->
  (forall m l, t_tab e = Some (m, l) -> m = Heap /\ zlen l = phnum_rdlock e h /\ h_phentsize h = phsize c64) ->
  newphdr c64 alloc e c = (r, e') ->
  (e' = e /\ (r = Err ELF_E_NOMEM \/ (r = Err ELF_E_INVALID_SECTION_HEADER /\ 65535 <= c /\ t_sh0 e = None))) \/
  (r = Ok (Some (zeros c)) /\ t_tab e' = Some (Heap, zeros c) /\ getphdrnum e' = Ok c /\ t_pdirty e' = true /\
   (exists h', t_ehdr e' = Some h' /\ h_phentsize h' = phsize c64 /\ h_phoff h' = h_phoff h) /\
   t_max e' = t_max e /\ (c < 65535 -> t_cnt e' = t_cnt e /\ t_sh0 e' = t_sh0 e)).
Proof.
  intros c64 alloc e h c r e' K C H B M CP T E. unfold newphdr in E. rewrite K, C in E. cbn [negb] in E.
  replace (u32 c =? c) with true in E by (symmetry; apply Z.eqb_eq; unfold u32; apply Z.mod_small; lia). cbn [negb] in E.
  rewrite Z.eqb_refl in E. cbn [negb] in E. rewrite andb_false_r in E.
  assert (C0 : (cls c64 =? 0) = false) by (destruct c64; reflexivity). rewrite C0, H in E.
  rewrite (proj2 (Z.eqb_neq c 0)) in E by lia. change PN_XNUM with 65535 in E.
  destruct (negb (h_phnum h =? c) || (c =? 65535) || (match t_tab e with None => true | Some _ => false end)) eqn:Q.
  - unfold new_table in E.
    replace ((two64 - 1) / phsize c64 <? c) with false in E
      by (symmetry; apply Z.ltb_ge; destruct c64; cbn [phsize]; [change ((two64 - 1) / 56) with 329406144173384850|change ((two64 - 1) / 32) with 576460752303423487]; lia).
    rewrite (proj2 (Z.eqb_neq (t_max e) 0)) in E by lia. rewrite andb_false_r in E. change PN_XNUM with 65535 in E.
    destruct ((65535 <=? c) && (match t_sh0 e with None => true | Some _ => false end)) eqn:S0.
    { injection E as <- <-. left. split; [reflexivity|]. right. apply andb_true_iff in S0. destruct S0 as [S1 S2]. split; [reflexivity|]. split; [apply Z.leb_le; exact S1|]. destruct (t_sh0 e); [discriminate|reflexivity]. }
    assert (TM : forall (X Y : outcome (option (list phdr)) * elf), match t_tab e with Some (Map _, _) => X | _ => Y end = Y).
    { intros. destruct (t_tab e) as [[m l]|]; [|reflexivity]. destruct (T m l eq_refl) as [-> _]. reflexivity. }
    rewrite TM in E. destruct (alloc (c * phsize c64)); cbn [negb] in E.
    2: { injection E as <- <-. left. auto. }
    injection E as <- <-. right. split; [reflexivity|]. destruct (65535 <=? c) eqn:X.
    + apply Z.leb_le in X. split; [reflexivity|]. split.
      { unfold getphdrnum. cbn [t_kind t_ehdr t_tab set_dirty set_pflags set_ehdr set_sh0 set_tab]. rewrite K. cbn [negb]. unfold phnum_rdlock.
        cbn [h_phnum t_cnt t_sh0 set_dirty set_pflags set_ehdr set_sh0 set_tab]. rewrite Z.eqb_refl.
        destruct (0 <? (if t_cnt e =? 0 then 1 else t_cnt e)) eqn:CN.
        - unfold u32. rewrite Z.mod_small by lia. reflexivity.
        - destruct (t_cnt e =? 0) eqn:CZ; [discriminate|]. apply Z.eqb_neq in CZ. apply Z.ltb_ge in CN. lia. }
      split; [reflexivity|]. split; [eexists; repeat split|]. split; [reflexivity|]. lia.
    + apply Z.leb_gt in X. split; [reflexivity|]. split.
      { unfold getphdrnum. cbn [t_kind t_ehdr t_tab set_dirty set_pflags set_ehdr set_sh0 set_tab]. rewrite K. cbn [negb]. unfold phnum_rdlock.
        cbn [h_phnum]. unfold u16. rewrite Z.mod_small by lia. change PN_XNUM with 65535. rewrite (proj2 (Z.eqb_neq c 65535)) by lia. reflexivity. }
      split; [reflexivity|]. split; [eexists; repeat split|]. split; [reflexivity|]. auto.
  - apply orb_false_iff in Q. destruct Q as [Q Q3]. apply orb_false_iff in Q. destruct Q as [Q1 Q2]. apply negb_false_iff in Q1. apply Z.eqb_eq in Q1. apply Z.eqb_neq in Q2.
    destruct (t_tab e) as [[m l]|] eqn:TT; [|discriminate]. destruct (T m l eq_refl) as (-> & L & P).
    assert (PN : phnum_rdlock e h = c). { unfold phnum_rdlock. change PN_XNUM with 65535. rewrite (proj2 (Z.eqb_neq _ _)) by lia. exact Q1. }
    rewrite PN in L. unfold same_table in E. rewrite P, Z.eqb_refl, TT in E. cbn [negb] in E. rewrite (proj2 (Z.ltb_ge _ _)) in E by lia.
    assert (SK : skipn (Z.to_nat c) l = []) by (apply skipn_all2; unfold zlen in L; lia). rewrite SK, app_nil_r in E.
    injection E as <- <-. right. split; [reflexivity|]. split; [reflexivity|]. split.
    { unfold getphdrnum. cbn [t_kind t_ehdr t_tab set_pflags set_tab]. rewrite K, H. cbn [negb]. f_equal. exact PN. }
    split; [reflexivity|]. split; [exists h; auto|]. split; [reflexivity|]. auto.
Qed.
Print Assumptions C86_new_partial.
(* a 64-bit file opened for reading and writing, not mapped, its three program headers read *)
Definition opened (t : option (mem * list phdr)) (sh0 : option Z) : elf := Elf true 2 (Some (Ehdr 3 56 64)) t true false 5 5 sh0 false false 4096.
Definition three : list phdr := repeat [1; 5; 0; 4096; 4096; 100; 100; 4096] 3.
Example C86_new_nonvacuous : exists e', newphdr true (fun _ => true) (opened (Some (Heap, three)) None) 4 = (Ok (Some (zeros 4)), e') /\ getphdrnum e' = Ok 4 /\ (forall m l, t_tab (opened (Some (Heap, three)) None) = Some (m, l) -> m = Heap /\ zlen l = phnum_rdlock (opened (Some (Heap, three)) None) (Ehdr 3 56 64) /\ 56 = phsize true).
Proof. eexists. split; [reflexivity|]. split; [reflexivity|]. intros m l E. injection E as <- <-. auto. Qed.

(* Removing the table: afterwards there is none and elf_getphdrnum gives 0 if e_phoff is 0. Partial: for a table that
   was read, and a section zero whose header was read. *)
Theorem C86_remove_partial : forall c64 alloc e h m l r e', t_kind e = true -> t_class e = cls c64 -> t_ehdr e = Some h -> t_tab e = Some (m, l) ->
  (0 < t_cnt e -> t_sh0 e <> None) -> newphdr c64 alloc e 0 = (r, e') ->
  r = Ok None /\ t_tab e' = None /\ t_pdirty e' = true /\ t_dirty e' = true /\ t_ehdr e' = Some (Ehdr 0 (phsize c64) (h_phoff h)) /\ (0 < t_cnt e -> t_sh0 e' = Some 0) /\ t_cnt e' = t_cnt e /\ (t_size e <= h_phoff h \/ getphdrnum e' = Ok 0).
Proof.
  intros c64 alloc e h m l r e' K C H T S E. unfold newphdr in E. rewrite K, C in E. cbn [negb] in E.
  change (u32 0 =? 0) with true in E. cbn [negb] in E. rewrite Z.eqb_refl in E. cbn [negb] in E. rewrite andb_false_r in E.
  assert (C0 : (cls c64 =? 0) = false) by (destruct c64; reflexivity). rewrite C0, H in E. change (0 =? 0) with true in E. cbn iota in E.
  unfold remove_table in E. rewrite T in E.
  assert (N : forall x, t_kind x = true -> t_tab x = None -> t_ehdr x = Some (Ehdr 0 (phsize c64) (h_phoff h)) -> t_size x = t_size e -> t_size e <= h_phoff h \/ getphdrnum x = Ok 0).
  { intros x X1 X2 X3 X4. destruct (Z.le_gt_cases (t_size e) (h_phoff h)) as [L|L]; [left; exact L|right].
    unfold getphdrnum. rewrite X1, X2, X3, X4. cbn [negb h_phoff]. unfold phnum_rdlock. cbn [h_phnum]. change (0 =? PN_XNUM) with false. cbn iota.
    destruct (h_phoff h =? 0); [reflexivity|]. rewrite (proj2 (Z.leb_gt _ _)) by lia. cbn [h_phnum].
    replace ((two64 - 1) / (if t_class x =? 1 then 32 else 56) <? 0) with false by (destruct (t_class x =? 1); reflexivity).
    rewrite Z.mul_0_l. change (u64 0) with 0. rewrite (proj2 (Z.ltb_ge _ _)) by lia. reflexivity. }
  destruct (0 <? t_cnt e) eqn:CN.
  - apply Z.ltb_lt in CN. destruct (t_sh0 e) as [i|] eqn:S0; [|destruct (S CN eq_refl)]. injection E as <- <-.
    repeat (split; [first [reflexivity|exact K|intros; reflexivity]|]). apply N; try reflexivity. exact K.
  - apply Z.ltb_ge in CN. injection E as <- <-.
    repeat (split; [first [reflexivity|exact K|intros; lia]|]). apply N; try reflexivity. exact K.
Qed.
Print Assumptions C86_remove_partial.
Example C86_remove_nonvacuous : exists e', newphdr true (fun _ => true) (opened (Some (Heap, three)) (Some 7)) 0 = (Ok None, e') /\ getphdrnum e' = Ok 0 /\ t_sh0 e' = Some 0.
Proof. eexists. split; [reflexivity|]. split; reflexivity. Qed.

(* A table that lies in the mapped file (every file opened with an _MMAP command, byte order of the host, after
   elf_getphdr): a table of another size is asked for with realloc of the mapped address. *)
Theorem C86_mapped_refuted : exists e, t_kind e = true /\ t_tab e = Some (Map true, three) /\ getphdrnum e = Ok 3 /\ forall alloc, fst (newphdr true alloc e 4) = UB.
Proof. exists (opened (Some (Map true, three)) (Some 0)). repeat split. Qed.
Print Assumptions C86_mapped_refuted.

(* A file that is not mapped has the section headers in memory only after the first elf_getshdr; removing a table
   that was read writes through the null pointer of section zero. *)
Theorem C86_null_refuted : exists e, t_kind e = true /\ t_tab e = Some (Heap, three) /\ t_cnt e = 5 /\ forall alloc, fst (newphdr true alloc e 0) = UB.
Proof. exists (opened (Some (Heap, three)) None). repeat split. Qed.
Print Assumptions C86_null_refuted.

(* "A COUNT of zero means remove existing table", but a table that nobody has read yet is not removed. *)
Theorem C86_unread_refuted : exists e, t_tab e = None /\ (forall alloc, newphdr true alloc e 0 = (Ok None, e)) /\ getphdrnum e = Ok 3.
Proof. exists (opened None (Some 0)). repeat split. Qed.
Print Assumptions C86_unread_refuted.

(* elf_getphdrnum before elf_newehdr reads e_phoff through a null pointer after it has set the error. *)
Theorem C86_order_refuted : getphdrnum fresh = UB.
Proof. reflexivity. Qed.
Print Assumptions C86_order_refuted.

(* The extended count that a large table leaves in section zero is cleared when the table is removed, but not when
   a small one replaces it. *)
Theorem C86_stale_refuted : exists a e, run true [NewEhdr; NewScn; NewPhdr 65535 true; NewPhdr 3 true] fresh = Ok (a, e) /\ getphdrnum e = Ok 3 /\ t_sh0 e = Some 65535.
Proof.
  do 2 eexists. split; [cbv -[repeat Z.to_nat zero_phdr]; reflexivity|]. split; reflexivity.
Qed.
Print Assumptions C86_stale_refuted.
