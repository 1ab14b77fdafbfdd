(* Proofs about BkptModel. *)
From Verif Require Import Base DwModel LineModel BkptModel BkptSpec.
From Verif Require SegProof.
From Coq Require Import ZifyBool ZifyNat.

Lemma zsub_step : forall A (l : list A) i u x, 0 <= i -> i < u -> znth l i = Some x -> zsub l i (u - i) = x :: zsub l (i + 1) (u - (i + 1)).
Proof.
  intros A l i u x I U X. unfold zsub. unfold znth in X. destruct (_ && _); [|discriminate]. replace (Z.to_nat (i + 1)) with (Datatypes.S (Z.to_nat i)) by lia. replace (Z.to_nat (u - i)) with (Datatypes.S (Z.to_nat (u - (i + 1)))) by lia.
  revert X. generalize (Z.to_nat i). clear. intros n. revert l. induction n as [|n IH]; intros [|y l] X; try discriminate; cbn [nth_error] in X.
  - injection X as ->. reflexivity.
  - cbn [skipn]. exact (IH l X).
Qed.
Lemma zsub_none : forall A (l : list A) i u, u <= i -> zsub l i (u - i) = [].
Proof. intros. unfold zsub. replace (Z.to_nat (u - i)) with 0%nat by lia. reflexivity. Qed.
Lemma zsub_in : forall A (l : list A) i n x, In x (zsub l i n) -> 0 <= i -> exists j, i <= j /\ znth l j = Some x.
Proof.
  intros A l i n x I I0. unfold zsub in I. assert (J : In x (skipn (Z.to_nat i) l)). { revert I. generalize (Z.to_nat n) (skipn (Z.to_nat i) l). clear. intros n l. revert l. induction n as [|n IH]; intros [|y l] I; cbn in *; try contradiction. destruct I as [I|I]; [left; exact I|right; exact (IH l I)]. }
  apply In_nth_error in J as (k & J). exists (i + Z.of_nat k). split; [lia|]. assert (NE : nth_error l (Z.to_nat i + k) = Some x). { rewrite <- J. generalize (Z.to_nat i). clear. intro n. revert l. induction n as [|n IH]; intro l; [reflexivity|]. destruct l as [|y l]; cbn [skipn plus nth_error]; [destruct k; reflexivity|apply IH]. }
  unfold znth. assert (LT : (Z.to_nat i + k < length l)%nat) by (apply nth_error_Some; congruence). replace ((0 <=? i + Z.of_nat k) && (i + Z.of_nat k <? zlen l)) with true by (unfold zlen; lia). replace (Z.to_nat (i + Z.of_nat k)) with (Z.to_nat i + k)%nat by lia. exact NE.
Qed.

Section table.
Variable lines : list line.
Hypothesis T : ordered lines.
Lemma addr_le : forall i j x y, i <= j -> znth lines i = Some x -> znth lines j = Some y -> n_addr x <= n_addr y.
Proof using T. intros i j x y L X Y. destruct (Z.eq_dec i j) as [->|]; [rewrite X in Y; injection Y as ->; lia|]. destruct (T i j x y ltac:(lia) X Y); lia. Qed.

(* the search: found, or there is nothing *)
Definition found_at (low k u : Z) : Prop := 0 <= k < u /\ u <= zlen lines /\ row_at lines low k /\ (u = zlen lines \/ exists y, znth lines u = Some y /\ low < n_addr y).
Lemma bsearch_ok : forall low fuel l u, 0 <= l -> u <= zlen lines -> u - l <= Z.of_nat fuel -> (u = zlen lines \/ exists y, znth lines u = Some y /\ low < n_addr y) -> (forall k, row_at lines low k -> l <= k < u) ->
  match bsearch fuel lines low l u with Ok (Some (k, v)) => found_at low k v | Ok None => forall k, ~ row_at lines low k | _ => False end.
Proof using T.
  intro low. induction fuel as [|fuel IH]; intros l u L U F UH H; cbn [bsearch].
  - replace (l <? u) with false by lia. intros k K. specialize (H k K). lia.
  - destruct (l <? u) eqn:LT; [|intros k K; specialize (H k K); lia]. set (idx := (l + u) / 2). assert (I : l <= idx < u) by (unfold idx; lia). clearbody idx. unfold at_row. destruct (Base.znth_in _ lines idx ltac:(lia)) as (x & X). rewrite X. cbn [obind].
    destruct (n_addr x <? low) eqn:C1; [|destruct (low <? n_addr x) eqn:C2; [|destruct (n_end x) eqn:C3]].
    + apply IH; [lia|lia|lia|exact UH|]. intros k K. pose proof (H k K). destruct K as (y & Y & YA & YE). destruct (Z_le_gt_dec k idx) as [LE|]; [|lia]. pose proof (addr_le k idx y x LE Y X). lia.
    + apply IH; [lia|lia|lia|right; exists x; split; [exact X|lia]|]. intros k K. pose proof (H k K). destruct K as (y & Y & YA & YE). destruct (Z_le_gt_dec idx k) as [LE|]; [|lia]. pose proof (addr_le idx k x y LE X Y). lia.
    + apply IH; [lia|lia|lia|exact UH|]. intros k K. pose proof (H k K). destruct K as (y & Y & YA & YE). destruct (Z_le_gt_dec k idx) as [LE|]; [|lia]. destruct (Z.eq_dec k idx) as [->|]; [congruence|]. destruct (T k idx y x ltac:(lia) Y X) as [Q|(Q1 & Q2)]; [lia|]. specialize (Q2 C3). congruence.
    + split; [lia|]. split; [lia|]. split; [|exact UH]. exists x. split; [exact X|]. split; [lia|exact C3].
Qed.
Lemma marked_none : forall i u high x, 0 <= i -> i < u -> znth lines i = Some x -> high <= n_addr x -> marked lines i u high = [].
Proof using T.
  intros i u high x I U X H. unfold marked. replace (filter _ _) with (@nil line); [reflexivity|]. symmetry. assert (G : forall y, In y (zsub lines i (u - i)) -> n_pe y && (n_addr y <? high) = false).
  { intros y Y. destruct (zsub_in _ _ _ _ _ Y I) as (j & J & Y'). pose proof (addr_le i j x y J X Y'). lia. }
  revert G. generalize (zsub lines i (u - i)). clear. intros l G. induction l as [|y l IH]; [reflexivity|]. cbn [filter]. rewrite (G y (or_introl eq_refl)). apply IH. intros z Z0. apply G. right. exact Z0.
Qed.
Lemma markers_ok : forall high u fuel i b, 0 <= i -> u <= zlen lines -> u - i <= Z.of_nat fuel -> markers fuel lines high i u b = Ok (b ++ marked lines i u high).
Proof using T.
  intros high u. induction fuel as [|fuel IH]; intros i b I U F; cbn [markers].
  - replace (i <? u) with false by lia. unfold marked. rewrite zsub_none by lia. cbn. rewrite app_nil_r. reflexivity.
  - destruct (i <? u) eqn:LT; [|unfold marked; rewrite zsub_none by lia; cbn; rewrite app_nil_r; reflexivity]. unfold at_row. destruct (Base.znth_in _ lines i ltac:(lia)) as (x & X). rewrite X. cbn [obind]. destruct (n_addr x <? high) eqn:C.
    + rewrite IH by lia. unfold marked. rewrite (zsub_step _ _ i u x) by (try exact X; lia). cbn [filter]. rewrite C, andb_true_r. destruct (n_pe x); cbn [map]; [rewrite <- app_assoc; reflexivity|reflexivity].
    + rewrite (marked_none i u high x) by (try exact X; lia). rewrite app_nil_r. reflexivity.
Qed.
Lemma next_cons : forall k high x, -1 <= k -> znth lines (k + 1) = Some x -> next_row lines k high = if negb (n_end x) && (n_addr x <? high) then Some (n_addr x) else next_row lines (k + 1) high.
Proof using. intros k high x K X. unfold next_row. assert (k + 1 < zlen lines) by (apply SegProof.znth_in in X; lia). rewrite (zsub_step _ _ (k + 1) (zlen lines) x) by (try exact X; lia). cbn [find]. destruct (negb _ && _); reflexivity. Qed.
Lemma second_ok : forall high fuel l, 0 <= l -> zlen lines - l <= Z.of_nat fuel -> second fuel lines high l = Ok (next_row lines (l - 1) high).
Proof using T.
  intro high. induction fuel as [|fuel IH]; intros l L F; cbn [second].
  - replace (l <? zlen lines) with false by lia. unfold next_row. rewrite zsub_none by lia. reflexivity.
  - destruct (l <? zlen lines) eqn:LT; [|unfold next_row; rewrite zsub_none by lia; reflexivity]. unfold at_row. destruct (Base.znth_in _ lines l ltac:(lia)) as (x & X). rewrite X. cbn [obind]. rewrite (next_cons (l - 1) high x) by (replace (l - 1 + 1) with l by lia; try exact X; lia). replace (l - 1 + 1) with l by lia.
    destruct (n_addr x <? high) eqn:C.
    + destruct (n_end x); cbn [negb andb]; [|reflexivity]. rewrite IH by lia. replace (l + 1 - 1) with l by lia. reflexivity.
    + rewrite andb_false_r. assert (N : next_row lines l high = None); [|rewrite N; reflexivity]. unfold next_row. destruct (find _ _) as [y|] eqn:FD; [|reflexivity]. exfalso. apply find_some in FD as (Y & FD). destruct (zsub_in _ _ _ _ _ Y ltac:(lia)) as (j & J & Y'). pose proof (addr_le l j x y ltac:(lia) X Y'). lia.
Qed.
Lemma search_ok : forall low high dwarf adhoc b,
  (search_range low high dwarf adhoc lines b = Err DWARF_E_INVALID_DWARF /\ forall k, ~ row_at lines low k) \/
  (exists k u, found_at low k u /\
    let m := b ++ (if dwarf then marked lines k u high else []) in
    search_range low high dwarf adhoc lines b = Ok (match m with [] => if adhoc then match next_row lines k high with Some a => [a] | None => [] end else [] | _ => m end)).
Proof using T.
  intros low high dwarf adhoc b. unfold search_range. assert (H : forall k, row_at lines low k -> 0 <= k < zlen lines) by (intros k (x & X & _); apply SegProof.znth_in in X; apply X).
  pose proof (zlen_nonneg _ lines). pose proof (bsearch_ok low (length lines) 0 (zlen lines) ltac:(lia) ltac:(lia) ltac:(unfold zlen; lia) (or_introl eq_refl) H) as B. destruct (bsearch _ _ _ _ _) as [[[k u]|]|er| |]; try contradiction; cbn [obind]; [right|left; split; [reflexivity|exact B]].
  exists k, u. split; [exact B|]. destruct B as (K & U & _). assert (M : (if dwarf then markers (length lines) lines high k u b else Ok b) = Ok (b ++ (if dwarf then marked lines k u high else []))).
  { destruct dwarf; [apply markers_ok; unfold zlen in *; lia|rewrite app_nil_r; reflexivity]. }
  rewrite M. cbn [obind]. cbn zeta. set (m := b ++ _). destruct m as [|z m]; [|rewrite andb_false_r; reflexivity]. rewrite andb_true_r. destruct adhoc; [|reflexivity]. rewrite second_ok by (unfold zlen in *; lia). cbn [obind]. replace (k + 1 - 1) with k by lia. destruct (next_row lines k high); reflexivity.
Qed.

(* every range of a list *)
Definition searched (r : Z * Z) (l : list Z) : Prop := exists k u, found_at (fst r) k u /\ l = marked lines k u (snd r).
(* the range with the lowest beginning, the first of those, below 2^64 - 1 *)
Definition lower (o : option (Z * Z)) (r : Z * Z) : option (Z * Z) := if fst r <? match o with Some x => fst x | None => two64 - 1 end then Some r else o.
Definition lowest (l : list (Z * Z)) : option (Z * Z) := fold_left lower l None.
Lemma each_ok : forall l o b,
  (each lines l o b = Err DWARF_E_INVALID_DWARF /\ exists r, In r l /\ forall k, ~ row_at lines (fst r) k) \/
  (exists ls, Forall2 searched l ls /\ each lines l o b = Ok (fold_left lower l o, b ++ concat ls)).
Proof using T.
  induction l as [|[s e] l IH]; intros o b; cbn [each fold_left]; [right; exists []; split; [constructor|rewrite app_nil_r; reflexivity]|].
  destruct (search_ok s e true false b) as [(-> & N)|(k & u & F & S1)]; cbn [obind]; [left; split; [reflexivity|]; exists (s, e); split; [left; reflexivity|exact N]|]. cbn zeta in S1. rewrite S1. cbn [obind].
  replace (match b ++ marked lines k u e with [] => [] | _ => b ++ marked lines k u e end) with (b ++ marked lines k u e) by (destruct (b ++ marked lines k u e); reflexivity).
  change (if s <? match o with Some x => fst x | None => two64 - 1 end then Some (s, e) else o) with (lower o (s, e)).
  destruct (IH (lower o (s, e)) (b ++ marked lines k u e)) as [(-> & r & R & N)|(ls & F2 & ->)]; [left; split; [reflexivity|]; exists r; split; [right; exact R|exact N]|].
  right. exists (marked lines k u e :: ls). split; [constructor; [exists k, u; split; [exact F|reflexivity]|exact F2]|]. cbn [concat]. rewrite app_assoc. reflexivity.
Qed.
Lemma marked_in : forall k u high a, 0 <= k -> In a (marked lines k u high) -> exists j x, k <= j /\ znth lines j = Some x /\ n_pe x = true /\ n_addr x = a /\ a < high.
Proof using.
  intros k u high a K I. unfold marked in I. apply in_map_iff in I as (x & E & I). apply filter_In in I as (I & P). destruct (zsub_in _ _ _ _ _ I K) as (j & J & X). exists j, x. split; [exact J|]. split; [exact X|]. split; [apply andb_true_iff in P; apply P|]. split; [exact E|lia].
Qed.
Lemma next_in : forall k high a, 0 <= k -> next_row lines k high = Some a -> exists j x, k < j /\ znth lines j = Some x /\ n_end x = false /\ n_addr x = a /\ a < high.
Proof using.
  intros k high a K N. unfold next_row in N. destruct (find _ _) as [x|] eqn:F; [|discriminate]. injection N as <-. apply find_some in F as (I & P). destruct (zsub_in _ _ _ _ _ I ltac:(lia)) as (j & J & X). exists j, x. split; [lia|]. split; [exact X|]. destruct (n_end x); [discriminate|]. split; [reflexivity|]. split; [reflexivity|lia].
Qed.
End table.
Lemma found_window : forall lines a k u, found_at lines a k u -> window lines a k u.
Proof. intros lines a k u (K & U & R & H). split; [exact R|]. split; [lia|exact H]. Qed.
Lemma searched_marks : forall lines l ls, Forall2 (searched lines) l ls -> Forall2 (range_marks lines) l ls.
Proof. intros lines l ls F. induction F as [|r x l ls (k & u & W & E) F IH]; constructor; [|exact IH]. exists k, u. split; [apply found_window; exact W|exact E]. Qed.
Definition key (o : option (Z * Z)) : Z := match o with Some x => fst x | None => two64 - 1 end.
Lemma lowest_gen : forall rs o, (forall r, In r rs -> 0 <= fst r < two64 - 1) -> key o <= two64 - 1 ->
  (fold_left lower rs o = o /\ Forall (fun x => key o <= fst x) rs) \/ (exists r, fold_left lower rs o = Some r /\ fst r < key o /\ first_least rs r).
Proof.
  induction rs as [|x rs IH]; intros o H K; [left; split; [reflexivity|constructor]|]. cbn [fold_left]. unfold lower at 2 4. fold (key o).
  destruct (fst x <? key o) eqn:C.
  - right. destruct (IH (Some x) (fun r R => H r (or_intror R)) ltac:(cbn [key]; pose proof (H x (or_introl eq_refl)); lia)) as [(E & F)|(r & E & L & b & a & -> & B & A)]; cbn [key] in *.
    + exists x. split; [exact E|]. split; [lia|]. exists [], rs. split; [reflexivity|]. split; [constructor|exact F].
    + exists r. split; [exact E|]. split; [lia|]. exists (x :: b), a. split; [reflexivity|]. split; [constructor; [lia|exact B]|exact A].
  - destruct (IH o (fun r R => H r (or_intror R)) K) as [(E & F)|(r & E & L & b & a & -> & B & A)]; [left; split; [exact E|constructor; [lia|exact F]]|].
    right. exists r. split; [exact E|]. split; [exact L|]. exists (x :: b), a. split; [reflexivity|]. split; [constructor; [lia|exact B]|exact A].
Qed.
Lemma lowest_ok : forall rs, (forall r, In r rs -> 0 <= fst r < two64 - 1) -> match lowest rs with None => rs = [] | Some r => first_least rs r end.
Proof.
  intros rs H. unfold lowest. destruct (lowest_gen rs None H ltac:(cbn; lia)) as [(E & F)|(r & E & L & F)].
  - rewrite E. destruct rs as [|x rs]; [reflexivity|]. apply Forall_cons_iff in F as (F & _). cbn [key] in F. specialize (H x (or_introl eq_refl)). lia.
  - rewrite E. exact F.
Qed.
