(* The functions of a unit, the inlined instances of a function and the variables of a scope:
   libdw/dwarf_getfuncs.c, dwarf_func_inline.c, dwarf_getscopevar.c.

   Entries and the walk are those of ScopeModel.  What other functions of the library give for
   an entry is a parameter.  A callback is a function of its argument's state and of the
   entry, to a new state and a result.  Simplifications: memory is always available. *)
From Verif Require Import Base ScopeModel.

(* dwarf.h:48-109 *)
Definition TAG_formal_parameter : Z := 5.
Definition TAG_lexical_block : Z := 11.
Definition TAG_compile_unit : Z := 17.
Definition TAG_subprogram : Z := 46.
Definition TAG_variable : Z := 52.
Definition CB_ABORT : Z := 1.                              (* libdw.h:48-52 *)

Section funcs.
Context {B : Type} (w : view)
  (declared : Z -> bool)                                   (* dwarf_hasattr DW_AT_declaration *)
  (cb : B -> Z -> B * Z).
(* dwarf_getfuncs.c:38-54 struct visitor_info *)
Record finfo := Finfo { fi_start : Z; fi_last : Z; fi_b : B }.
(* dwarf_getfuncs.c:56-92 tree_visitor *)
Definition tree_visitor (c_cu : bool) (depth : nat) (chain : list Z) (v : finfo) : outcome (finfo * bool * Z) :=
  match chain with
  | [] => UB
  | d :: _ =>
    let tag := v_tag w d in
    if c_cu && negb (tag =? TAG_subprogram) && negb (tag =? TAG_lexical_block) && negb (tag =? TAG_inlined_subroutine) then Ok (v, true, 0)
    else if negb (fi_start v =? 0) then Ok (if d =? fi_start v then Finfo 0 (fi_last v) (fi_b v) else v, false, 0)
    else if negb (tag =? TAG_subprogram) || declared d then Ok (v, false, 0)
    else let '(b, r) := cb (fi_b v) d in Ok (Finfo (fi_start v) d b, false, r)
  end.
(* dwarf_getfuncs.c:94-119; lang: what dwarf_srclang gives *)
Definition c_lang (lang : Z) : bool := (lang =? 1) || (lang =? 2) || (lang =? 12) || (lang =? 29).
Definition getfuncs (k : nat) (lang cu offset : Z) (b : B) : outcome (B * Z) :=
  if negb (v_tag w cu =? TAG_compile_unit) then Ok (b, -1)
  else
    ' (v, res) <- visit_scopes w (tree_visitor (c_lang lang)) None k 0 [cu] [] (Finfo offset 0 b) ;;
    Ok (fi_b v, if res =? CB_ABORT then fi_last v else res).

(* dwarf_attr DW_AT_abstract_origin, then dwarf_formref_die: no attribute, no entry, the entry *)
Inductive oref := NoOrigin | BadOrigin | Origin (d : Z).
(* dwarf_func_inline.c:43-66 scope_visitor *)
Definition inline_visitor (origin : Z -> oref) (die : Z) (depth : nat) (chain : list Z) (b : B) : outcome (B * bool * Z) :=
  match chain with
  | [] => UB
  | d :: _ =>
    if negb (v_tag w d =? TAG_inlined_subroutine) then Ok (b, false, 0)
    else
      match origin d with
      | NoOrigin => Ok (b, false, 0)
      | BadOrigin => Ok (b, false, CB_ABORT)
      | Origin o => if negb (o =? die) then Ok (b, false, 0) else let '(b, r) := cb b d in Ok (b, false, r)
      end
  end.
(* dwarf_func_inline.c:92-100; cu: the entry of the unit of the function *)
Definition inline_instances (origin : Z -> oref) (k : nat) (cu func : Z) (b : B) : outcome (B * Z) :=
  visit_scopes w (inline_visitor origin func) None k 0 [cu] [] b.
End funcs.
Arguments finfo : clear implicits.

(* dwarf_func_inline.c:68-90; val: the value of DW_AT_inline if there is one *)
Definition func_inline (val : option Z) : Z :=
  match val with
  | Some v => if v =? 0 then 0 else if v =? 2 then -1 else if (v =? 1) || (v =? 3) then 1 else 0
  | None => 0
  end.

Section scopevar.
Variables (w : view)
  (name : Z -> option bytes)                               (* dwarf_diename *)
  (udata : Z -> Z -> option Z)                             (* dwarf_attr, dwarf_formudata *)
  (srcfiles : Z -> option (list bytes)).                   (* dwarf_getsrcfiles of the entry of the unit *)
(* dwarf.h:212-214 *)
Definition AT_decl_column : Z := 57.
Definition AT_decl_file : Z := 58.
Definition AT_decl_line : Z := 59.
(* dwarf_getscopevar.c:55-73 file_matches; lastfile is always NULL *)
Definition file_matches (m : bytes) (files : list bytes) (idx : Z) : outcome bool :=
  match znth files idx with
  | None => Ok false
  | Some file =>
    let len := zlen file in
    if negb (zlen m <=? len) then Ok false
    else if negb (if list_eq_dec Z.eq_dec m (zsub file 0 (zlen m)) then true else false) then Ok false
    else if len =? zlen m then Ok true
    else match znth file (len - zlen m - 1) with None => UB | Some c => Ok (c =? 47) end
  end.
(* what a request is: the name, the file, the line and the column *)
Record request := Request { q_name : bytes; q_file : option bytes; q_line : Z; q_col : Z }.
(* dwarf_getscopevar.c:48-53, 139-147: a number that is asked for is there *)
Definition number_ok (d at_ n : Z) : bool := if 0 <? n then match udata d at_ with Some i => s32 i =? n | None => false end else true.
(* dwarf_getscopevar.c:124-148 *)
Definition decl_matches (q : request) (scope d : Z) : outcome bool :=
  match q_file q with
  | None => Ok true
  | Some m =>
    match udata d AT_decl_file, srcfiles scope with
    | Some i, Some files =>
      f <- file_matches m files i ;;
      Ok (f && number_ok d AT_decl_line (q_line q) && number_ok d AT_decl_column (q_col q))
    | _, _ => Ok false
    end
  end.
Definition has_name (q : request) (d : Z) : bool :=
  match name d with Some n => if list_eq_dec Z.eq_dec (q_name q) n then true else false | None => false end.
(* dwarf_getscopevar.c:101-155: the entry that wins, or what is left to skip *)
Fixpoint scope_loop (k : nat) (q : request) (scope d : Z) (skip : Z) : outcome (Z + Z) :=
  match k with
  | O => Fuel
  | S k =>
    let next := match v_sib w d with Got d => scope_loop k q scope d skip | _ => Ok (inr skip) end in
    if negb (v_tag w d =? TAG_variable) && negb (v_tag w d =? TAG_formal_parameter) then next
    else if has_name q d then
      if 0 <? skip then Ok (inr (skip - 1))
      else
        ok <- decl_matches q scope d ;;
        if ok then Ok (inl d) else Ok (inr skip)
    else next
  end.
(* dwarf_getscopevar.c:84-159: the result, and the entry if one is found *)
Fixpoint getscopevar (k : nat) (q : request) (out : Z) (scopes : list Z) (skip : Z) : outcome (Z * option Z) :=
  match scopes with
  | [] => Ok (-2, None)
  | s :: scopes =>
    if v_haskids w s then
      match v_kid w s with
      | Got d =>
        r <- scope_loop k q s d skip ;;
        match r with
        | inl d => Ok (out, Some d)
        | inr skip => getscopevar k q (out + 1) scopes skip
        end
      | _ => Ok (-1, None)
      end
    else getscopevar k q (out + 1) scopes skip
  end.
End scopevar.
