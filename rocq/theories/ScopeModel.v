(* Scopes of an address or of an entry: libdw/libdw_visit_scopes.c, dwarf_getscopes.c,
   dwarf_getscopes_die.c.

   An entry is its address (die.addr).  The calls of other functions of the library on
   entries are the fields of [view], any functions; what dwarf_child, dwarf_siblingof and
   dwarf_haspc do is in DieModel and RngModel (C51, C57).  Simplifications: memory is
   always available; depths and counts are unbounded.  A failing assertion ends the
   process: UB; so does following a parent pointer that is NULL. *)
From Verif Require Import Base.

(* dwarf_child, dwarf_siblingof: 0 with an entry, 1, or -1 *)
Inductive nav := Got (d : Z) | NoMore | Bad.
(* dwarf_haspc: 1, 0, or -1 with the error *)
Inductive has := Yes | No | Fails (e : Z).
Record view := View {
  v_tag : Z -> Z;                 (* dwarf_tag *)
  v_kid : Z -> nav;               (* dwarf_child *)
  v_sib : Z -> nav;               (* dwarf_siblingof *)
  v_haskids : Z -> bool;          (* dwarf_haschildren, not 0 *)
  v_import : Z -> option Z;       (* dwarf_attr DW_AT_import, dwarf_formref_die *)
  v_origin : Z -> option Z;       (* dwarf_attr DW_AT_abstract_origin, dwarf_formref_die *)
  v_haspc : Z -> Z -> has }.      (* dwarf_haspc *)

(* dwarf.h:50-109 *)
Definition TAG_imported_unit : Z := 61.
Definition TAG_inlined_subroutine : Z := 29.
(* libdw_visit_scopes.c:36-65 *)
Definition may_have_scopes (t : Z) : bool :=
  existsb (Z.eqb t) [17; 30; 11; 34; 37; 50; 3; 29; 46] || existsb (Z.eqb t) [57; 2; 19].

Section visit.
Context {A : Type} (w : view)
  (pre : nat -> list Z -> A -> outcome (A * bool * Z))
  (post : option (nat -> list Z -> bool -> A -> outcome (A * Z))).

(* libdw_visit_scopes.c:113-188 walk_children; the chain of the child is the child and
   its parents, innermost first; pre gives die->prune and the result *)
Fixpoint walk (k : nat) (depth : nat) (parents imports : list Z) (c : Z) (a : A) : outcome (A * Z) :=
  match k with
  | O => Fuel
  | S k =>
    let next a :=
      match v_sib w c with
      | Got c => walk k depth parents imports c a
      | NoMore => Ok (a, 0)
      | Bad => Ok (a, -1)
      end in
    if v_tag w c =? TAG_imported_unit then
      match v_import w c with
      | None => next a
      | Some u =>
        match v_kid w u with
        | Got c1 =>
          if existsb (Z.eqb c) imports then Ok (a, -1)
          else
            ' (a, r) <- walk k depth parents (c :: imports) c1 a ;;
            if negb (r =? 0) then Ok (a, r) else next a
        | _ => next a
        end
      end
    else
      ' (x, r) <- pre (S depth) (c :: parents) a ;;
      let '(a, prune) := x in
      if negb (r =? 0) then Ok (a, r)
      else
        ' (a, r) <- (if negb prune && may_have_scopes (v_tag w c) && v_haskids w c then
                       match v_kid w c with
                       | Got c1 => walk k (S depth) (c :: parents) imports c1 a
                       | NoMore => Ok (a, 0)
                       | Bad => Ok (a, -1)
                       end
                     else Ok (a, 0)) ;;
        if negb (r =? 0) then Ok (a, r)
        else
          ' (a, r) <- match post with None => Ok (a, 0) | Some f => f (S depth) (c :: parents) prune a end ;;
          if negb (r =? 0) then Ok (a, r) else next a
  end.

(* libdw_visit_scopes.c:83-110 __libdw_visit_scopes; chain: the root and its parents *)
Definition visit_scopes (k : nat) (depth : nat) (chain imports : list Z) (a : A) : outcome (A * Z) :=
  match chain with
  | [] => UB
  | root :: _ =>
    match v_kid w root with
    | Got c => walk k depth chain imports c a
    | NoMore => Ok (a, 0)
    | Bad => Ok (a, -1)
    end
  end.
End visit.

(* dwarf_getscopes.c:39-45 struct args, without the pc *)
Record args := Args { a_scopes : option (list Z); a_inlined : nat; a_origin : Z }.

(* the first n entries of a chain *)
Fixpoint take (n : nat) (chain : list Z) : outcome (list Z * list Z) :=
  match n with
  | O => Ok ([], chain)
  | S n => match chain with [] => UB | d :: r => ' (l, rest) <- take n r ;; Ok (d :: l, rest) end
  end.

Section scopes.
Variables (w : view) (pc : Z).
Definition NO_DEBUG_RANGES : Z := 40.                       (* libdwP.h:137-138 *)
Definition NO_DEBUG_RNGLISTS : Z := 41.
(* dwarf_getscopes.c:47-83 pc_match *)
Definition pc_match (depth : nat) (chain : list Z) (a : args) : outcome (args * bool * Z) :=
  match a_scopes a, chain with
  | Some _, _ => Ok (a, true, 0)
  | None, [] => UB
  | None, d :: _ =>
    let yes := Ok (if v_tag w d =? TAG_inlined_subroutine then Args (a_scopes a) depth (a_origin a) else a, false, 0) in
    let no := Ok (a, true, 0) in
    match v_haspc w d pc with
    | Yes => yes
    | No => no
    | Fails e => if negb (e =? 0) && negb (e =? NO_DEBUG_RANGES) && negb (e =? NO_DEBUG_RNGLISTS) then Ok (a, false, -1) else no
    end
  end.
(* dwarf_getscopes.c:85-119 origin_match *)
Definition origin_match (depth : nat) (chain : list Z) (a : args) : outcome (args * bool * Z) :=
  match chain, a_scopes a with
  | d :: parents, Some sc =>
    if negb (d =? a_origin a) then Ok (a, false, 0)
    else
      ' (l, rest) <- take depth parents ;;
      match rest with
      | [] => Ok (Args (Some (sc ++ l)) (a_inlined a) (a_origin a), false, Z.of_nat (length sc + depth))
      | _ => UB
      end
  | _, _ => UB
  end.
(* dwarf_getscopes.c:121-182 pc_record *)
Definition pc_record (k : nat) (depth : nat) (chain : list Z) (prune : bool) (a : args) : outcome (args * Z) :=
  if prune then Ok (a, 0)
  else
    match a_scopes a with
    | None =>
      let n := (depth + 1 - a_inlined a)%nat in
      ' (l, rest) <- take n chain ;;
      if Nat.eqb (a_inlined a) 0 then
        match rest with [] => Ok (Args (Some l) (a_inlined a) (a_origin a), Z.of_nat n) | _ => UB end
      else
        match nth_error l (depth - a_inlined a) with
        | None => UB
        | Some i =>
          if negb (v_tag w i =? TAG_inlined_subroutine) then UB
          else
            match v_origin w i with
            | None => Ok (Args (Some l) (a_inlined a) (a_origin a), -1)
            | Some o => Ok (Args (Some l) (a_inlined a) o, 0)
            end
        end
    | Some _ =>
      if Nat.eqb (a_inlined a) 0 then UB
      else if Nat.leb (a_inlined a) depth then Ok (a, 0)
      else visit_scopes w origin_match None k depth chain [] a
    end.

(* dwarf_getscopes.c:185-203: the result and *scopes if it is positive *)
Definition getscopes (k : nat) (cu : Z) : outcome (Z * option (list Z)) :=
  ' (a, r) <- visit_scopes w pc_match (Some (pc_record k)) k 0 [cu] [] (Args None 0 0) ;;
  ' (a, r) <- (if (r =? 0) && match a_scopes a with Some _ => true | None => false end
               then visit_scopes w origin_match None k 0 [cu] [] a else Ok (a, r)) ;;
  Ok (r, if 0 <? r then a_scopes a else None).
End scopes.

(* dwarf_getscopes_die.c:36-60 scope_visitor; the state is the array once it is found *)
Definition scope_visitor (die : Z) (depth : nat) (chain : list Z) (a : option (list Z)) : outcome (option (list Z) * bool * Z) :=
  match chain with
  | [] => UB
  | d :: _ =>
    if negb (d =? die) then Ok (a, false, 0)
    else if Nat.eqb (length chain) depth then Ok (Some chain, false, Z.of_nat depth) else UB
  end.
(* dwarf_getscopes_die.c:62-74; cu: the entry of the unit of die *)
Definition getscopes_die (w : view) (k : nat) (cu die : Z) : outcome (Z * option (list Z)) :=
  ' (a, r) <- visit_scopes w (scope_visitor die) None k 1 [cu] [] None ;;
  Ok (r, if 0 <? r then a else None).
