(* The lines of a source file that a user asks for: which of all lines are to be found. *)
From Verif Require Import Base LineModel SrcModel.

(* the last component of a file name *)
Definition last_part (s b : bytes) : Prop := ~ In 47 b /\ (s = b \/ exists d, s = d ++ [47] ++ b).
(* A name with a slash is the whole name; one without is the last part of it. *)
Definition named (fname name : bytes) : Prop := if existsb (Z.eqb 47) fname then name = fname else last_part name fname.
(* at or behind the wanted line, and column if one is given *)
Definition behind (lineno column : Z) (l : line) : Prop := lineno <= n_line l /\ (column = 0 \/ column <= n_col l).
Definition exact (lineno column : Z) (l : line) : Prop := n_line l = lineno /\ (column = 0 \/ n_col l = column).

(* l is before r, or equally far: by line, then column *)
Definition upto (l r : line) : Prop := n_line l < n_line r \/ (n_line l = n_line r /\ n_col l <= n_col r).
(* What is to be found of the candidates of one file: all exact lines; if there is none,
   the nearest line behind, and of equally near ones the last. *)
Definition best (lineno column : Z) (c r : list line) : Prop :=
  (Exists (exact lineno column) c -> exists p, (forall l, p l = true <-> exact lineno column l) /\ r = filter p c) /\
  (~ Exists (exact lineno column) c -> c <> [] -> exists l1 b l2, c = l1 ++ b :: l2 /\ r = [b] /\ Forall (upto b) l1 /\ Forall (fun l => ~ upto l b) l2) /\
  (c = [] -> r = []).
(* all lines of a unit that are candidates, with their table *)
Inductive candidates (fname : bytes) (lineno column t : Z) (names : list bytes) : list line -> list found -> Prop :=
  | C_nil : candidates fname lineno column t names [] []
  | C_in : forall l ls r name, znth names (n_file l) = Some name -> named fname name -> behind lineno column l ->
      candidates fname lineno column t names ls r -> candidates fname lineno column t names (l :: ls) (Found t l :: r)
  | C_out : forall l ls r name, znth names (n_file l) = Some name -> ~ (named fname name /\ behind lineno column l) ->
      candidates fname lineno column t names ls r -> candidates fname lineno column t names (l :: ls) r.
(* of a list of units *)
Inductive all_candidates (fname : bytes) (lineno column : Z) : list unit_lines -> list found -> Prop :=
  | A_nil : all_candidates fname lineno column [] []
  | A_skip : forall u us r, u = NoDie \/ u = NoLines -> all_candidates fname lineno column us r -> all_candidates fname lineno column (u :: us) r
  | A_unit : forall t names lines us c r, candidates fname lineno column t names lines c -> all_candidates fname lineno column us r ->
      all_candidates fname lineno column (HasLines t names lines :: us) (c ++ r).
(* the lines of one file in a list *)
Definition of_file (t file : Z) (l : list found) : list line := map o_line (filter (fun x => (o_table x =? t) && (n_file (o_line x) =? file)) l).
