(* The properties of relocation: libdwfl/relocate.c. *)
From Verif Require Import Base RelocModel RelocSpec RelocProof.

(* one relocation: it is applied, or refused and nothing is changed *)
Theorem C77_one_partial : forall big simple resolve rela t r, 0 <= r_off r ->
  match relocate big simple resolve rela t r with
  | Ok (None, t') => applies big simple resolve rela t r t'
  | Ok (Some e, t') => t' = t /\ refuses simple resolve rela (zlen t) r e
  | UB => overflows big simple resolve rela t r
  | _ => False
  end.
Proof. exact relocate_ok. Qed.
Print Assumptions C77_one_partial.
(* an x86-64-like table of types: 1 is R_X86_64_64, 10 is R_X86_64_32, 11 R_X86_64_32S, 12 subtracts *)
Definition ex_simple (t : Z) : option (rtype * Z) := if t =? 1 then Some (TXword, 0) else if t =? 10 then Some (TWord, 0) else if t =? 11 then Some (TSword, 0) else if t =? 12 then Some (TByte, -1) else None.
Definition ex_resolve (s : Z) : derr + Z := if s =? 1 then inr 4096 else if s =? 2 then inl E_RELUNDEF else inl E_LIBELF.
Example C77_one_partial_nonvacuous :
  relocate false ex_simple ex_resolve true [9; 9; 9; 9; 9; 9] (Rel 1 10 1 (-1)) = Ok (None, [9; 255; 15; 0; 0; 9]) /\
  relocate true ex_simple ex_resolve true [9; 9; 9; 9; 9; 9] (Rel 1 10 1 (-1)) = Ok (None, [9; 0; 0; 15; 255; 9]) /\
  relocate false ex_simple ex_resolve false [9; 1; 0; 0; 0; 9] (Rel 1 11 1 0) = Ok (None, [9; 1; 16; 0; 0; 9]) /\
  relocate false ex_simple ex_resolve true [9; 5] (Rel 1 12 0 2) = Ok (None, [9; 3]) /\
  relocate false ex_simple ex_resolve true [9; 9; 9; 9] (Rel 1 10 1 0) = Ok (Some E_BADRELOFF, [9; 9; 9; 9]) /\
  relocate false ex_simple ex_resolve true [9; 9; 9; 9] (Rel 0 7 1 0) = Ok (Some E_BADRELTYPE, [9; 9; 9; 9]).
Proof. repeat split; vm_compute; reflexivity. Qed.

(* the relocations of a section: all are applied in order but those of other types and with
   undefined symbols, which are left; or one is refused for another reason, after the ones before it *)
Theorem C77_section_partial : forall big simple resolve rela rs t, (forall r, In r rs -> 0 <= r_off r) ->
  match relocate_entries big simple resolve rela false true rs t with
  | Ok (None, rs', t') => run big simple resolve rela t rs t' rs'
  | Ok (Some e, _, t') => exists rs1 r rs2 left, rs = rs1 ++ r :: rs2 /\ run big simple resolve rela t rs1 t' left /\ refuses simple resolve rela (zlen t) r e /\ ~ skips e
  | UB => exists rs1 r rs2 t1 left, rs = rs1 ++ r :: rs2 /\ run big simple resolve rela t rs1 t1 left /\ overflows big simple resolve rela t1 r
  | _ => False
  end.
Proof.
  intros big simple resolve rela rs t NN. pose proof (entries_ok big simple resolve rela rs t NN) as H.
  destruct (relocate_entries big simple resolve rela false true rs t) as [[[[e|] rs'] t']|e| |]; try contradiction.
  - destruct H as (rs1 & r & rs2 & l1 & k & -> & M & R & SK & _).
    assert (NN1 : forall x, In x rs1 -> 0 <= r_off x) by (intros x X; apply NN; apply in_or_app; left; exact X).
    exists rs1, r, rs2, (filter (not_elided rela) l1). split; [reflexivity|]. split; [exact (marks_run _ _ _ _ _ _ _ _ _ M NN1)|].
    pose proof (relocate_ok big simple resolve rela t' r (NN r ltac:(apply in_or_app; right; left; reflexivity))) as O. rewrite R in O. destruct O as (_ & O).
    rewrite (marks_len _ _ _ _ _ _ _ _ _ M NN1) in O. split; [exact O|]. intros [-> | ->]; discriminate.
  - destruct H as (l & n & M & ->). exact (marks_run _ _ _ _ _ _ _ _ _ M NN).
  - destruct H as (rs1 & r & rs2 & l1 & k & t1 & -> & M & R).
    assert (NN1 : forall x, In x rs1 -> 0 <= r_off x) by (intros x X; apply NN; apply in_or_app; left; exact X).
    exists rs1, r, rs2, t1, (filter (not_elided rela) l1). split; [reflexivity|]. split; [exact (marks_run _ _ _ _ _ _ _ _ _ M NN1)|].
    pose proof (relocate_ok big simple resolve rela t1 r (NN r ltac:(apply in_or_app; right; left; reflexivity))) as O. rewrite R in O. exact O.
Qed.
Print Assumptions C77_section_partial.
Definition ex_rels : list rel := [Rel 0 10 1 1; Rel 4 77 1 0; Rel 4 10 2 0; Rel 0 12 0 1].
Example C77_section_partial_nonvacuous : (forall r, In r ex_rels -> 0 <= r_off r) /\
  relocate_entries false ex_simple ex_resolve true false true ex_rels [9; 9; 9; 9; 9; 9; 9; 9] = Ok (None, [Rel 4 77 1 0; Rel 4 10 2 0], [0; 16; 0; 0; 9; 9; 9; 9]) /\
  relocate_entries false ex_simple ex_resolve true false true (ex_rels ++ [Rel 6 10 1 0]) [9; 9; 9; 9; 9; 9; 9; 9] = Ok (Some E_BADRELOFF, [zero_rel; Rel 4 77 1 0; Rel 4 10 2 0; zero_rel; Rel 6 10 1 0], [0; 16; 0; 0; 9; 9; 9; 9]).
Proof. split; [intros r [<-|[<-|[<-|[<-|[]]]]]; cbn; lia|]. split; vm_compute; reflexivity. Qed.

(* what is done once is not done again: a second call changes neither the section nor the entries,
   and has the result of the first, failed or not *)
Theorem C77_once : forall big simple resolve rela rs t e rs' t', (forall r, In r rs -> 0 <= r_off r) ->
  relocate_entries big simple resolve rela false true rs t = Ok (e, rs', t') ->
  relocate_entries big simple resolve rela false true rs' t' = Ok (e, rs', t').
Proof. exact again_same. Qed.
Print Assumptions C77_once.
Example C77_once_nonvacuous : exists e rs' t', relocate_entries false ex_simple ex_resolve true false true (ex_rels ++ [Rel 6 10 1 0]) [9; 9; 9; 9; 9; 9; 9; 9] = Ok (e, rs', t') /\ e <> None /\ rs' <> [] /\ t' <> [9; 9; 9; 9; 9; 9; 9; 9].
Proof. do 3 eexists. split; [vm_compute; reflexivity|]. split; [discriminate|split; discriminate]. Qed.

Lemma run_len : forall big simple resolve rela t rs t' left, run big simple resolve rela t rs t' left -> zlen t' = zlen t.
Proof.
  intros big simple resolve rela t rs t' left R. induction R as [t|t r t1 rs t2 left A R IH|t r e rs t2 left F S R IH]; [reflexivity| |exact IH].
  rewrite IH. destruct A as [(_ & ->)|(_ & ty & a & v & _ & _ & _ & _ & L & _)]; [reflexivity|exact L].
Qed.
Lemma run_frame : forall big simple resolve rela t rs t' left, run big simple resolve rela t rs t' left -> forall i,
  (forall r ty a, In r rs -> simple (r_type r) = Some (ty, a) -> ~ (r_off r <= i < r_off r + rsize ty)) -> znth t' i = znth t i.
Proof.
  intros big simple resolve rela t rs t' left R. induction R as [t|t r t1 rs t2 left A R IH|t r e rs t2 left F S R IH]; intros i O; [reflexivity| |].
  - rewrite IH by (intros x ty a X E; exact (O x ty a (or_intror X) E)). destruct A as [(_ & ->)|(_ & ty & a & v & SI & _ & _ & _ & _ & K & _)]; [reflexivity|]. apply K. exact (O r ty a (or_introl eq_refl) SI).
  - apply IH. intros x ty a X E. exact (O x ty a (or_intror X) E).
Qed.
(* the length of the section stays, and so does every byte that no relocation is for *)
Theorem C77_frame : forall big simple resolve rela rs t e rs' t', (forall r, In r rs -> 0 <= r_off r) ->
  relocate_entries big simple resolve rela false true rs t = Ok (e, rs', t') ->
  zlen t' = zlen t /\ forall i, (forall r ty a, In r rs -> simple (r_type r) = Some (ty, a) -> ~ (r_off r <= i < r_off r + rsize ty)) -> znth t' i = znth t i.
Proof.
  intros big simple resolve rela rs t e rs' t' NN H. pose proof (C77_section_partial big simple resolve rela rs t NN) as S1. rewrite H in S1. destruct e as [e|].
  - destruct S1 as (rs1 & r & rs2 & left & -> & R & _). split; [exact (run_len _ _ _ _ _ _ _ _ R)|]. intros i O. apply (run_frame _ _ _ _ _ _ _ _ R). intros x ty a X. apply O. apply in_or_app. left. exact X.
  - split; [exact (run_len _ _ _ _ _ _ _ _ S1)|]. exact (run_frame _ _ _ _ _ _ _ _ S1).
Qed.
Print Assumptions C77_frame.
Example C77_frame_nonvacuous : exists e rs' t', relocate_entries false ex_simple ex_resolve true false true [Rel 0 10 1 1; Rel 4 77 1 0] [9; 9; 9; 9; 9; 9] = Ok (e, rs', t') /\
  forall r ty a, In r [Rel 0 10 1 1; Rel 4 77 1 0] -> ex_simple (r_type r) = Some (ty, a) -> ~ (r_off r <= 4 < r_off r + rsize ty).
Proof.
  do 3 eexists. split; [vm_compute; reflexivity|]. intros r ty a [<-|[<-|[]]]; cbn; intro E; [injection E as <- <-; cbn; lia|discriminate].
Qed.
(* data that may be written is not where the headers of the file are.  The sums do not wrap:
   libelf has checked them before *)
Theorem C77_headers_partial : forall ehsize shoff shnum shentsize phoff phnum phentsize s t,
  0 <= shoff -> 0 <= shnum * shentsize -> shoff + shnum * shentsize < two64 ->
  0 <= phoff -> 0 <= phnum * phentsize -> phoff + phnum * phentsize < two64 ->
  0 <= fst s -> 0 <= snd s -> fst s + snd s < two64 -> 0 <= fst t -> 0 <= snd t -> fst t + snd t < two64 ->
  placement ehsize shoff shnum shentsize phoff phnum phentsize s t = None ->
  forall x, x = s \/ x = t ->
  apart 0 ehsize (fst x) (snd x) /\ apart shoff (shnum * shentsize) (fst x) (snd x) /\ (phoff <> 0 -> apart phoff (phnum * phentsize) (fst x) (snd x)).
Proof.
  intros ehsize shoff shnum shentsize phoff phnum phentsize s t A1 A2 A3 B1 B2 B3 S1 S2 S3 T1 T2 T3 P x X. unfold placement, overlaps, u64 in P.
  rewrite !Z.mod_small in P by lia.
  destruct ((fst s <? ehsize) || (fst t <? ehsize)) eqn:E1; [discriminate|]. apply orb_false_iff in E1. destruct E1 as (E1 & E1').
  destruct (_ || _) eqn:E2 in P; [discriminate|]. apply orb_false_iff in E2. destruct E2 as (E2 & E2'). apply andb_false_iff in E2, E2'.
  unfold apart. split; [|split].
  - intros y Y. destruct X as [-> | ->]; lia.
  - intros y Y. destruct X as [-> | ->]; lia.
  - intros N y Y. assert (PN : (phnum =? 0) = false) by (destruct (phnum =? 0) eqn:E; [|reflexivity]; apply Z.eqb_eq in E; subst phnum; lia).
    replace (phoff =? 0) with false in P by lia. rewrite PN in P. cbn [negb andb] in P.
    destruct (_ || _) eqn:E3 in P; [discriminate|]. apply orb_false_iff in E3. destruct E3 as (E3 & E3'). apply andb_false_iff in E3, E3'. destruct X as [-> | ->]; lia.
Qed.
Print Assumptions C77_headers_partial.
Example C77_headers_partial_nonvacuous : placement 64 1000 10 64 64 2 56 (200, 48) (300, 100) = None /\ placement 64 1000 10 64 64 2 56 (170, 48) (300, 100) = Some E_BADELF /\ placement 64 1000 10 64 64 2 56 (200, 48) (990, 11) = Some E_BADELF.
Proof. vm_compute. repeat split. Qed.
(* without a backend for the machine nothing is relocated and the error says so *)
Theorem C77_machine : forall big simple resolve rela rs t, rs <> [] -> (forall ty, simple ty = None) ->
  relocate_entries big simple resolve rela true true rs t = Ok (Some E_UNKNOWN_MACHINE, rs, t).
Proof.
  intros big simple resolve rela [|r rs] t N S; [congruence|]. unfold relocate_entries. cbn [rel_loop]. unfold relocate. rewrite S. destruct (r_type r =? 0); reflexivity.
Qed.
Print Assumptions C77_machine.
Example C77_machine_nonvacuous : ex_rels <> [] /\ exists simple : Z -> option (rtype * Z), forall ty, simple ty = None.
Proof. split; [discriminate|]. exists (fun _ => None). reflexivity. Qed.
(* A 32-bit signed addition in place overflows for values a file can have (R_386_32 has addends
   in place): the C code computes an int sum, which is undefined. *)
Theorem C77_overflow_refuted : exists simple resolve t r, zlen t = 4 /\ r_off r = 0 /\ simple (r_type r) = Some (TSword, 0) /\ resolve (r_sym r) = inr 2147483647 /\ relocate false simple resolve false t r = UB.
Proof. exists ex_simple, (fun _ => inr 2147483647), [1; 0; 0; 0], (Rel 0 11 1 0). vm_compute. repeat split. Qed.
Print Assumptions C77_overflow_refuted.
(* When relocation is not partial a failed call does not take away what it has applied, and the
   next call applies it again (no caller in the library asks for that). *)
Theorem C77_complete_refuted : exists rs t e rs' t' t'', relocate_entries false ex_simple ex_resolve true false false rs t = Ok (Some e, rs', t') /\
  relocate_entries false ex_simple ex_resolve true false false rs' t' = Ok (Some e, rs', t'') /\ t'' <> t'.
Proof. exists [Rel 0 12 0 1; Rel 0 77 0 0], [9], E_BADRELTYPE. do 3 eexists. split; [vm_compute; reflexivity|]. split; [vm_compute; reflexivity|discriminate]. Qed.
Print Assumptions C77_complete_refuted.

(* C78: load addresses do not depend on what has been asked before, and the callback is asked
   once for a section that it gives an address for *)
Theorem C78_history : forall bias cb secs reqs,
  let '(answers, called) := session bias cb secs reqs in
  answers = map (fun q => loaded_value bias cb secs (fst q) (snd q)) reqs /\
  (forall i x, cb i = Some x -> x <> 0 -> x <> two64 - 1 -> (count_occ Z.eq_dec called i <= 1)%nat) /\
  (forall i s, znth secs i = Some s -> s_alloc s = false \/ s_addr s <> 0 -> ~ In i called).
Proof.
  intros bias cb secs reqs. pose proof (session_ok bias cb reqs secs secs (kept_refl cb secs)) as H. destruct (session bias cb secs reqs) as (l, called).
  destruct H as (H1 & H2 & H3). split; [exact H1|]. split; [exact H3|]. intros i s S D. apply H2. intros s' S' A. rewrite S in S'. injection S' as <-. destruct D as [D|D]; [exact D|contradiction].
Qed.
Print Assumptions C78_history.
Definition ex_cb (i : Z) : option Z := if i =? 1 then Some 4096 else if i =? 2 then Some (two64 - 1) else None.
Definition ex_secs : list sec := [Sec 0 false; Sec 0 true; Sec 0 true; Sec 0 true; Sec 8192 true; Sec 5 false].
Example C78_history_nonvacuous : session 256 ex_cb ex_secs [(1, 4); (2, 4); (1, 8); (3, 4); (4, 4); (5, 4); (6, 4); (0, 7); (2, 1)] =
  ([inr 4356; inr 260; inr 4360; inl E_CB; inr 8452; inr 4; inl E_LIBELF; inr 7; inr 257], [1; 2; 3; 2]).
Proof. vm_compute. reflexivity. Qed.
(* An address of 0 is not kept: the callback is called each time, contrary to the comment on the cache. *)
Theorem C78_called_refuted : exists cb secs, snd (session 0 cb secs [(1, 0); (1, 0); (1, 0)]) = [1; 1; 1].
Proof. exists (fun _ => Some (two64 - 1)), ex_secs. vm_compute. reflexivity. Qed.
Print Assumptions C78_called_refuted.

(* a symbol that is defined in the file *)
Theorem C78_defined : forall syms reloc others ndx y, znth syms ndx = Some y -> y_shndx y <> 0 -> y_shndx y <> 65522 ->
  symbol_value syms reloc others ndx = if negb (y_x y) && (y_shndx y =? 65521) then inr (y_value y) else reloc (y_shndx y) (y_value y).
Proof.
  intros syms reloc others ndx y E N0 NC. unfold symbol_value, SHN_ABS, SHN_UNDEF, SHN_COMMON. rewrite E. replace (y_shndx y =? 0) with false by lia. replace (y_shndx y =? 65522) with false by lia. rewrite orb_false_r, andb_false_r. cbn [orb].
  destruct (negb (y_x y) && (y_shndx y =? 65521)); [reflexivity|]. destruct (reloc (y_shndx y) (y_value y)); reflexivity.
Qed.
Print Assumptions C78_defined.
Definition ex_syms : list sym := [Sym 0 0 false true 0 None; Sym 16 1 false false 1 (Some [97]); Sym 5 65521 false false 3 (Some [98]); Sym 0 0 false false 5 (Some [99]); Sym 4 65522 false false 7 (Some [100]); Sym 0 0 false false 9 (Some [101])].
Definition ex_reloc (i v : Z) : derr + Z := inr (4096 * i + v).
Definition ex_other : modl := Modl [Sym 0 0 false true 0 None; Sym 1 1 false true 1 (Some [99]); Sym 2 0 false false 1 (Some [99]); Sym 3 2 false false 1 (Some [99]); Sym 7 2 false false 3 (Some [102])] true (fun v => v) (fun i v => inr (65536 * i + v)).
Definition ex_other2 : modl := Modl [Sym 0 0 false true 0 None; Sym 9 2 false false 1 (Some [99]); Sym 8 2 false false 1 (Some [100])] false (fun v => v + 1048576) (fun i v => inl E_LIBELF).
Example C78_defined_nonvacuous : symbol_value ex_syms ex_reloc [ex_other; ex_other2] 1 = inr 4112 /\ symbol_value ex_syms ex_reloc [ex_other; ex_other2] 2 = inr 5.
Proof. split; vm_compute; reflexivity. Qed.
(* a symbol that is not: the first global definition of its name in the other modules *)
Theorem C78_undefined : forall syms reloc others ndx y name, znth syms ndx = Some y -> y_shndx y = 0 -> y_x y = false -> y_name y <> 0 -> y_str y = Some name ->
  symbol_value syms reloc others ndx = match definition_of others name with Some r => r | None => inl E_RELUNDEF end.
Proof.
  intros syms reloc others ndx y name E U X N S. unfold symbol_value, SHN_ABS, SHN_UNDEF, SHN_COMMON. rewrite E, U, X. cbn [negb andb orb Z.eqb]. unfold resolve_symbol. replace (y_name y =? 0) with false by lia. rewrite S.
  pose proof (modules_ok others name (y_value y)) as M. destruct (match_modules others name (y_value y)) as (last, r). cbn [snd] in M. subst r. destruct (definition_of others name) as [[e|v]|]; [destruct e; reflexivity|reflexivity|reflexivity].
Qed.
Print Assumptions C78_undefined.
Example C78_undefined_nonvacuous : symbol_value ex_syms ex_reloc [ex_other; ex_other2] 3 = inr 131075 /\ symbol_value ex_syms ex_reloc [ex_other2; ex_other] 3 = inr 1048585 /\ symbol_value ex_syms ex_reloc [ex_other; ex_other2] 5 = inl E_RELUNDEF.
Proof. repeat split; vm_compute; reflexivity. Qed.
(* A common symbol that another module defines has the value of that definition; one that none defines
   has the value 0 only if the other modules have no symbols. *)
Theorem C78_common_partial : forall syms reloc others ndx y name, znth syms ndx = Some y -> y_shndx y = 65522 -> y_x y = false -> y_name y <> 0 -> y_str y = Some name ->
  (forall v, definition_of others name = Some (inr v) -> symbol_value syms reloc others ndx = inr v) /\
  ((forall m, In m others -> tl (m_syms m) = []) -> symbol_value syms reloc others ndx = inr 0).
Proof.
  intros syms reloc others ndx y name E U X N S.
  assert (R : symbol_value syms reloc others ndx = let '(last, r) := match_modules others name 0 in match r with Some (inr v) => inr v | Some (inl E_RELUNDEF) => inr last | Some (inl e) => inl e | None => inr last end).
  { unfold symbol_value, SHN_ABS, SHN_UNDEF, SHN_COMMON. rewrite E, U, X. cbn [negb andb orb Z.eqb Pos.eqb]. unfold resolve_symbol. replace (y_name y =? 0) with false by lia. rewrite S. destruct (match_modules others name 0) as (last, [[e|v]|]); [destruct e; reflexivity|reflexivity|reflexivity]. }
  rewrite R. split.
  - intros v D. pose proof (modules_ok others name 0) as M. destruct (match_modules others name 0) as (last, r). cbn [snd] in M. subst r. rewrite D. reflexivity.
  - intro Z0. assert (G : match_modules others name 0 = (0, None)); [|rewrite G; reflexivity]. clear R. induction others as [|m ms IH]; [reflexivity|]. cbn [match_modules]. rewrite (Z0 m (or_introl eq_refl)). cbn [match_module]. apply IH. intros x Hx. apply Z0. right. exact Hx.
Qed.
Print Assumptions C78_common_partial.
Example C78_common_partial_nonvacuous : definition_of [ex_other; ex_other2] [100] = Some (inr 1048584) /\ symbol_value ex_syms ex_reloc [ex_other; ex_other2] 4 = inr 1048584 /\ symbol_value ex_syms ex_reloc [] 4 = inr 0.
Proof. repeat split; vm_compute; reflexivity. Qed.
(* A common symbol nobody else defines is given the st_value of an unrelated symbol: the last one of
   the other modules, as resolve_symbol reads symbols into the caller's. *)
Theorem C78_common_refuted : exists syms y others, znth syms 4 = Some y /\ y_shndx y = 65522 /\ y_str y = Some [100] /\ definition_of others [100] = None /\ symbol_value syms ex_reloc others 4 = inr 7.
Proof. exists ex_syms. eexists. exists [ex_other]. split; [reflexivity|]. repeat split; vm_compute; reflexivity. Qed.
Print Assumptions C78_common_refuted.
(* A symbol of section 65522, which has its index in the extended table, is taken for a common one. *)
Theorem C78_xindex_refuted : exists y others, y_x y = true /\ y_shndx y = 65522 /\ ex_reloc (y_shndx y) (y_value y) = inr 268378116 /\ symbol_value [Sym 0 0 false true 0 None; y] ex_reloc others 1 = inr 1048584.
Proof. exists (Sym 4 65522 true false 7 (Some [100])), [ex_other2]. vm_compute. repeat split. Qed.
Print Assumptions C78_xindex_refuted.
