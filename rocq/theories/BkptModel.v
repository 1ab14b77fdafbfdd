(* Where to break when a function is entered: libdw/dwarf_entry_breakpoints.c.

   What dwarf_getsrclines, dwarf_ranges and dwarf_entrypc give is a parameter (LineModel,
   RngModel).  Simplifications: memory is always available; counts are unbounded.  Reading
   outside of the line table is UB. *)
From Verif Require Import Base DwModel LineModel.

Definition at_row (lines : list line) (i : Z) : outcome line := match znth lines i with Some x => Ok x | None => UB end.
(* dwarf_entry_breakpoints.c:68-84: what is found and u, or nothing *)
Fixpoint bsearch (k : nat) (lines : list line) (low l u : Z) : outcome (option (Z * Z)) :=
  if l <? u then
    match k with
    | O => Fuel
    | S k =>
      let idx := (l + u) / 2 in
      x <- at_row lines idx ;;
      if n_addr x <? low then bsearch k lines low (idx + 1) u
      else if low <? n_addr x then bsearch k lines low l idx
      else if n_end x then bsearch k lines low (idx + 1) u
      else Ok (Some (idx, u))
    end
  else Ok None.
(* dwarf_entry_breakpoints.c:88-91 *)
Fixpoint markers (k : nat) (lines : list line) (high i u : Z) (b : list Z) : outcome (list Z) :=
  if i <? u then
    match k with
    | O => Fuel
    | S k => x <- at_row lines i ;; if n_addr x <? high then markers k lines high (i + 1) u (if n_pe x then b ++ [n_addr x] else b) else Ok b
    end
  else Ok b.
(* dwarf_entry_breakpoints.c:93-95; l has been incremented *)
Fixpoint second (k : nat) (lines : list line) (high l : Z) : outcome (option Z) :=
  if l <? zlen lines then
    match k with
    | O => Fuel
    | S k => x <- at_row lines l ;; if n_addr x <? high then (if n_end x then second k lines high (l + 1) else Ok (Some (n_addr x))) else Ok None
    end
  else Ok None.
(* dwarf_entry_breakpoints.c:60-101 search_range *)
Definition search_range (low high : Z) (dwarf adhoc : bool) (lines : list line) (b : list Z) : outcome (list Z) :=
  r <- bsearch (length lines) lines low 0 (zlen lines) ;;
  match r with
  | None => Err DWARF_E_INVALID_DWARF
  | Some (l, u) =>
    b <- (if dwarf then markers (length lines) lines high l u b else Ok b) ;;
    if adhoc && (match b with [] => true | _ => false end) then
      s <- second (length lines) lines high (l + 1) ;;
      match s with Some a => Ok [a] | None => Ok [] end
    else Ok b
  end.

(* dwarf_getsrclines: the lines, no line table at all, or an error *)
Inductive table := Rows (l : list line) | NoTable | BadTable (e : Z).
(* dwarf_ranges: an error, one range without a list, or a list (which ends or fails) *)
Inductive ranges := BadRanges (e : Z) | One (b e : Z) | Many (l : list (Z * Z)).
(* dwarf_entry_breakpoints.c:51-57 entrypc_bkpt *)
Definition entrypc_bkpt (pc : outcome Z) : outcome (list Z) := a <- pc ;; Ok [a].
(* dwarf_entry_breakpoints.c:133-149 *)
Fixpoint each (lines : list line) (l : list (Z * Z)) (lowest : option (Z * Z)) (b : list Z) : outcome (option (Z * Z) * list Z) :=
  match l with
  | [] => Ok (lowest, b)
  | (s, e) :: l =>
    b <- search_range s e true false lines b ;;
    each lines l (if s <? match lowest with Some x => fst x | None => two64 - 1 end then Some (s, e) else lowest) b
  end.
(* dwarf_entry_breakpoints.c:103-163 *)
Definition entry_breakpoints (t : table) (r : ranges) (pc : outcome Z) : outcome (list Z) :=
  match t with
  | BadTable e => Err e
  | NoTable => entrypc_bkpt pc
  | Rows lines =>
    match r with
    | BadRanges e => Err e
    | One s e => b <- search_range s e true true lines [] ;; match b with [] => entrypc_bkpt pc | _ => Ok b end
    | Many l =>
      ' (lowest, b) <- each lines l None [] ;;
      match b with
      | [] =>
        b <- match lowest with None => Ok [] | Some (s, e) => search_range s e false true lines [] end ;;
        match b with [] => entrypc_bkpt pc | _ => Ok b end
      | _ => Ok b
      end
    end
  end.
