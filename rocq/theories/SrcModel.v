(* The lines of a source file: libdw/dwarf_getsrc_file.c.

   What dwarf_nextcu, dwarf_offdie and dwarf_getsrclines give for each unit is a parameter;
   what it is is in UnitModel, DieModel and LineModel.  A table of file names is its number
   (the pointer line->files): units with the same line table share it.  Simplifications:
   memory is always available. *)
From Verif Require Import Base DwModel LineModel.

Definition DWARF_E_NO_MATCH : Z := 37.
(* what a unit has: no entry, no line table, a line table in error, or one with the number
   of its file table, the names of the files and the lines *)
Inductive unit_lines := NoDie | NoLines | BadLines (e : Z) | HasLines (t : Z) (names : list bytes) (lines : list line).
(* a line found: its file table and itself *)
Record found := Found { o_table : Z; o_line : line }.

(* string.h basename of glibc: what is behind the last slash *)
Fixpoint basename (s : bytes) : bytes :=
  match s with
  | [] => []
  | c :: r => if existsb (Z.eqb 47) r then basename r else if c =? 47 then r else s
  end.
Fixpoint same (a b : bytes) : bool := match a, b with [], [] => true | x :: a, y :: b => (x =? y) && same a b | _, _ => false end.

Section file.
Variables (fname : bytes) (lineno column : Z) (max : Z).

(* dwarf_getsrc_file.c:86-93 *)
Definition name_is (name : bytes) : bool := if existsb (Z.eqb 47) fname then same name fname else same (basename name) fname.
(* dwarf_getsrc_file.c:98-101 *)
Definition cannot (l : line) : bool := negb (lineno =? 0) && ((n_line l <? lineno) || (negb (column =? 0) && (n_col l <? column))).
(* dwarf_getsrc_file.c:105-109: the first match of the same file *)
Definition same_file (a b : found) : bool := (o_table a =? o_table b) && (n_file (o_line a) =? n_file (o_line b)).
(* dwarf_getsrc_file.c:110-114 *)
Definition differs (o l : line) : bool :=
  negb (n_line o =? n_line l) || negb (n_line o =? lineno) || (negb (column =? 0) && (negb (n_col o =? n_col l) || negb (n_col o =? column))).
(* dwarf_getsrc_file.c:118-120 *)
Definition better (o l : line) : bool := (n_line l <=? n_line o) && (negb (n_line o =? n_line l) || (n_col l <=? n_col o)).
Fixpoint replace (l : list found) (x : found) : list found :=
  match l with [] => [] | o :: r => if same_file o x then x :: r else o :: replace r x end.
(* dwarf_getsrc_file.c:103-148 *)
Definition add (m : list found) (x : found) : list found :=
  match find (fun o => same_file o x) m with
  | Some o =>
    if differs (o_line o) (o_line x) then (if better (o_line o) (o_line x) then replace m x else m)
    else if zlen m <? max then m ++ [x] else m
  | None => if zlen m <? max then m ++ [x] else m
  end.
(* dwarf_getsrc_file.c:72-149; UINT_MAX is two32 - 1 *)
Fixpoint scan (t : Z) (names : list bytes) (lines : list line) (lastfile : Z) (lastmatch : bool) (m : list found) : outcome (list found) :=
  match lines with
  | [] => Ok m
  | l :: r =>
    let go (f : Z) (b : bool) := scan t names r f b (if b && negb (cannot l) then add m (Found t l) else m) in
    if lastfile =? n_file l then go lastfile lastmatch
    else match znth names (n_file l) with
         | None => Err DWARF_E_INVALID_DWARF
         | Some name => go (n_file l) (name_is name)
         end
  end.
(* dwarf_getsrc_file.c:46-155 *)
Fixpoint units (l : list unit_lines) (m : list found) : outcome (list found) :=
  match l with
  | [] => Ok m
  | u :: r =>
    match u with
    | NoDie | NoLines => units r m
    | BadLines e => Err e
    | HasLines t names lines =>
      m <- scan t names lines (two32 - 1) false m ;;
      if zlen m =? max then Ok m else units r m
    end
  end.
End file.
(* dwarf_getsrc_file.c:37-178; nsrcs: how many the caller has room for, 0: any number *)
Definition getsrc_file (l : list unit_lines) (fname : bytes) (lineno column nsrcs : Z) : outcome (list found) :=
  m <- units fname lineno column (if nsrcs =? 0 then two32 - 1 else nsrcs) l [] ;;
  match m with [] => Err DWARF_E_NO_MATCH | _ => Ok m end.
