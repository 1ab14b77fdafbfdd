(* C98: the symbols that the index is made of. *)
From Verif Require Import Base RsymModel.

(* A symbol table of a type that can be read; the global symbols in it are those from sh_info on; the ones that are defined and have a name *)
Definition table (ty : Z) (c : rsec) : bool := rc_hdr c && (rc_type c =? ty) && rc_data c && negb (rc_ent c =? 0).
Definition global_name (c : rsec) (ndx : Z) (s : bytes) : Prop := rc_info c <= ndx < rc_size c / rc_ent c /\ exists y, rc_sym c ndx = Some y /\ rs_shndx y <> 0 /\ rs_name y = Some s.
(* out are the names of all of them, in the order of their numbers *)
Inductive names_in (c : rsec) : Z -> list bytes -> Prop :=
| N_end k : rc_size c / rc_ent c <= k -> names_in c k []
| N_name k s l : global_name c k s -> names_in c (k + 1) l -> names_in c k (s :: l)
| N_skip k l : k < rc_size c / rc_ent c -> (forall s, ~ global_name c k s) -> names_in c (k + 1) l -> names_in c k l.
Definition small (c : rsec) : Prop := 0 <= rc_info c < 2 ^ 31 /\ rc_size c / rc_ent c < 2 ^ 31 /\ 0 <= rc_size c /\ 0 <= rc_ent c.

Lemma sec_ok c : small c -> names_in c (rc_info c) (sec_names c).
Proof.
  intros (I & N & S1 & S2). unfold sec_names.
  assert (P : 0 <= rc_size c / rc_ent c). { destruct (Z.eq_dec (rc_ent c) 0) as [E | E]; [rewrite E, Zdiv_0_r; lia | apply Z.div_pos; lia]. }
  assert (E : forall v, 0 <= v < 2 ^ 31 -> s32 v = v). { intros v V. unfold s32. rewrite Z.mod_small by lia. lia. }
  rewrite !E by lia.
  assert (G : forall n k, rc_info c <= k -> n = Z.to_nat (rc_size c / rc_ent c - k) -> names_in c k (sym_names n k (rc_sym c))).
  { induction n as [|n IH]; intros k K H; cbn [sym_names]; [apply N_end; lia|].
    specialize (IH (k + 1) ltac:(lia) ltac:(lia)).
    destruct (rc_sym c k) as [y|] eqn:Y; [destruct (rs_shndx y =? SHN_UNDEF) eqn:U; [|destruct (rs_name y) as [s|] eqn:NM]|].
    - apply N_skip; [lia | | exact IH]. intros s (_ & y' & A & B & _). rewrite Y in A. injection A as <-. unfold SHN_UNDEF in U. lia.
    - apply N_name; [|exact IH]. split; [lia|]. exists y. unfold SHN_UNDEF in U. split; [exact Y|]. split; [lia | exact NM].
    - apply N_skip; [lia | | exact IH]. intros s (_ & y' & A & _ & B). rewrite Y in A. injection A as <-. congruence.
    - apply N_skip; [lia | | exact IH]. intros s (_ & y' & A & _). congruence. }
  apply G; [lia | reflexivity].
Qed.
Lemma secs_rel l : secs_names SHT_SYMTAB ET_REL l = concat (map sec_names (filter (table 2) l)).
Proof.
  induction l as [|c l IH]; [reflexivity|]. cbn [secs_names filter]. unfold table at 1. change SHT_SYMTAB with 2 in *. destruct (rc_hdr c), (rc_type c =? 2), (rc_data c), (rc_ent c =? 0); cbn [negb andb map concat]; try exact IH.
  change (ET_REL =? ET_REL) with true. cbn iota. rewrite IH. reflexivity.
Qed.
Lemma secs_dyn e l : e = 2 \/ e = 3 -> secs_names SHT_DYNSYM e l = match find (table 11) l with Some c => sec_names c | None => [] end.
Proof.
  intros E. induction l as [|c l IH]; [reflexivity|]. cbn [secs_names find]. unfold table at 1. change SHT_DYNSYM with 11 in *. destruct (rc_hdr c), (rc_type c =? 11), (rc_data c), (rc_ent c =? 0); cbn [negb andb]; try exact IH.
  replace (e =? ET_REL) with false by (unfold ET_REL; lia). apply app_nil_r.
Qed.

(* An object file: the names of the defined global symbols of all its symbol tables; an executable or shared object: those of its first dynamic symbol table; other members: none. *)
Theorem C98_symbols_partial : forall is_elf etype l, Forall small l ->
  (is_elf = true -> etype = 1 -> exists parts, member_names is_elf etype l = concat parts /\ Forall2 (fun c p => names_in c (rc_info c) p) (filter (table 2) l) parts) /\
  (is_elf = true -> etype = 2 \/ etype = 3 -> match find (table 11) l with Some c => names_in c (rc_info c) (member_names is_elf etype l) | None => member_names is_elf etype l = [] end) /\
  (is_elf = false \/ (etype <> 1 /\ etype <> 2 /\ etype <> 3) -> member_names is_elf etype l = []).
Proof.
  intros is_elf etype l S. unfold member_names, ET_EXEC, ET_DYN. split; [|split].
  - intros -> ->. cbn [negb]. change (1 =? ET_REL) with true. cbn iota. exists (map sec_names (filter (table 2) l)). split; [apply secs_rel|].
    assert (F : Forall small (filter (table 2) l)) by (rewrite Forall_forall in *; intros c Hc; apply S; apply filter_In in Hc; apply Hc).
    induction F as [|c k F1 F2 IH]; constructor; [apply sec_ok; exact F1 | exact IH].
  - intros -> E. cbn [negb]. replace (etype =? ET_REL) with false by (unfold ET_REL; lia). replace ((etype =? 2) || (etype =? 3)) with true by lia. rewrite (secs_dyn etype l E).
    destruct (find (table 11) l) as [c|] eqn:F; [|reflexivity]. apply sec_ok. rewrite Forall_forall in S. apply S. apply find_some in F. apply F.
  - intros [-> | (A & B & C)]; [reflexivity|]. destruct is_elf; [|reflexivity]. cbn [negb]. unfold ET_REL. replace (etype =? 1) with false by lia. replace ((etype =? 2) || (etype =? 3)) with false by lia. reflexivity.
Qed.
Print Assumptions C98_symbols_partial.

Definition a_sec : rsec := Rsec true 2 true 96 24 1 (fun k => if k =? 0 then Some (Rsym 1 (Some [122])) else if k =? 1 then Some (Rsym 5 (Some [102])) else if k =? 2 then Some (Rsym 0 (Some [103])) else if k =? 3 then Some (Rsym 6 (Some [104])) else None).
Example C98_symbols_nonvacuous : Forall small [a_sec; a_sec] /\ member_names true 1 [a_sec; a_sec] = [[102]; [104]; [102]; [104]] /\ member_names true 3 [a_sec] = [].
Proof. split; [repeat first [apply Forall_nil | apply Forall_cons]; (split; [cbn; lia|]; split; [reflexivity | cbn; lia])|]. split; reflexivity. Qed.

(* The number of entries is kept in an int: with 2^31 entries or more no symbol is taken. *)
Theorem C98_many_refuted : forall sym n, 2 ^ 31 <= n < 2 ^ 32 -> member_names true 1 [Rsec true 2 true (24 * n) 24 0 sym] = [].
Proof.
  intros sym n N. unfold member_names. cbn [negb]. change (1 =? ET_REL) with true. cbn iota. cbn [secs_names rc_hdr rc_type rc_data rc_ent negb]. change (2 =? SHT_SYMTAB) with true. cbn [negb].
  change (24 =? 0) with false. change (1 =? ET_REL) with true. cbn iota. rewrite app_nil_r. unfold sec_names. cbn [rc_size rc_ent rc_info rc_sym]. rewrite (Z.mul_comm 24 n), Z.div_mul by lia.
  replace (Z.to_nat (s32 n - s32 0)) with O; [reflexivity|]. change (s32 0) with 0. assert (s32 n < 0); [|lia]. unfold s32. replace ((n + two31) mod two32) with (n + two31 - two32); [lia|]. apply Z.mod_unique with (q := 1); lia.
Qed.
Print Assumptions C98_many_refuted.
