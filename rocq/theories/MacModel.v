(* Macro information: libdw/dwarf_getmacros.c.

   mem holds the section and the bytes readable behind it, e is the size of the section.
   Simplifications: memory is always available; no relocations.  The attributes of the
   entry of the unit are parameters; what they are is in UnitModel and FormModel.  The
   directory of the unit is left out.  The names of operand forms a unit defines are taken
   out of the section when its header is read, not when they are used.  A pointer beyond
   the end of the section may be compared; one that has wrapped around is UB (here: more
   than 2^63 operands).  A failing assertion ends the process: UB.  The callback is a
   function on the state a of the caller that gives the new state and the number
   returned. *)
From Verif Require Import Base LebModel DwModel FormModel LineModel PubModel.

Record sec := Sec { s_mem : bytes; s_size : Z }.

(* libdwP.h struct Dwarf_Macro_Op_Table_s; t_ops: the operand forms of an opcode, newest
   first; t_line: -1 if there is none *)
Record table := Table { t_ops : list (Z * list Z); t_line : Z; t_hdr : Z; t_version : Z; t_64 : bool }.
Definition forms_of (ops : list (Z * list Z)) (op : Z) : option (list Z) :=
  match find (fun x => fst x =? op) ops with Some x => Some (snd x) | None => None end.

(* dwarf_getmacros.c:96-106 *)
Definition macinfo_ops : list (Z * list Z) :=
  [(1, [FORM_udata; FORM_string]); (2, [FORM_udata; FORM_string]); (255, [FORM_udata; FORM_string]); (3, [FORM_udata; FORM_udata]); (4, [])].
(* dwarf_getmacros.c:189-212 *)
Definition macro_ops : list (Z * list Z) :=
  [(1, [FORM_udata; FORM_string]); (2, [FORM_udata; FORM_string]); (5, [FORM_udata; FORM_strp]); (6, [FORM_udata; FORM_strp]);
   (3, [FORM_udata; FORM_udata]); (4, []); (7, [FORM_sec_offset]); (8, [FORM_udata; FORM_strp_sup]); (9, [FORM_udata; FORM_strp_sup]);
   (10, [FORM_sec_offset]); (11, [FORM_udata; FORM_strx]); (12, [FORM_udata; FORM_strx])].

(* what the entry of a unit says: DW_AT_stmt_list, DW_AT_macro_info, DW_AT_GNU_macros,
   DW_AT_macros (None: absent, Some None: not a number) and the size of an address *)
Record mcu := MCU { c_line : option (option Z); c_info : option (option Z); c_gnu : option (option Z); c_mac : option (option Z); c_asize : Z }.

(* dwarf_getmacros.c:120-126, :174-181; the number -1 is two64 - 1 *)
Definition cu_line (cu : option mcu) : outcome Z :=
  match cu with
  | None => Ok (two64 - 1)
  | Some c => match c_line c with
              | None => Ok (two64 - 1)
              | Some None => Err DWARF_E_NO_CONSTANT
              | Some (Some v) => Ok v
              end
  end.

Section macros.
Variable fle : bool.

(* dwarf_getmacros.c:217-236: n definitions of operands *)
Fixpoint read_defs (s : sec) (n : nat) (p : Z) (ops : list (Z * list Z)) : outcome (list (Z * list Z) * Z) :=
  match n with
  | O => Ok (ops, p)
  | S n =>
    op <- rd fle (s_mem s) p 1 ;;
    let p := p + 1 in
    if s_size s <=? p then Err DWARF_E_INVALID_DWARF
    else
      ' (nforms, p) <- get_uleb128 (s_mem s) p (s_size s) ;;
      if op =? 0 then UB                                       (* op_protos[-1] *)
      else if two63 <=? nforms then UB
      else if s_size s <? p + nforms then Err DWARF_E_INVALID_DWARF
      else read_defs s n (p + nforms) ((op, zsub (s_mem s) p nforms) :: ops)
  end.
(* dwarf_getmacros.c:238-247: how many opcodes have operands *)
Definition count_ops (ops : list (Z * list Z)) : nat :=
  length (filter (fun i => match forms_of ops (Z.of_nat i) with Some _ => true | None => false end) (seq 1 255)).
(* dwarf_getmacros.c:141-269 get_table_for_offset *)
Definition get_table (s : sec) (macoff : Z) (cu : option mcu) : outcome table :=
  if s_size s <? macoff + 3 then Err DWARF_E_INVALID_DWARF
  else
    version <- rd fle (s_mem s) macoff 2 ;;
    if negb (version =? 4) && negb (version =? 5) then Err DWARF_E_INVALID_VERSION
    else
      flags <- rd fle (s_mem s) (macoff + 2) 1 ;;
      let wide := Z.testbit flags 0 in
      let p := macoff + 3 in
      ' (line, p) <- (if Z.testbit flags 1 then
                        let n := if wide then 8 else 4 in
                        v <- rd fle (s_mem s) p n ;;
                        if s_size s <? p + n then Err DWARF_E_INVALID_DWARF else Ok (v, p + n)
                      else v <- cu_line cu ;; Ok (v, p)) ;;
      ' (ops, p) <- (if Z.testbit flags 2 then
                       count <- rd fle (s_mem s) p 1 ;;
                       read_defs s (Z.to_nat count) (p + 1) macro_ops
                     else Ok (macro_ops, p)) ;;
      if Nat.leb 255 (count_ops ops) then UB
      else Ok (Table ops line (p - macoff) version wide).
(* dwarf_getmacros.c:115-139 get_macinfo_table *)
Definition get_macinfo_table (cu : option mcu) : outcome table :=
  match cu with
  | None => UB
  | Some c => v <- cu_line cu ;; Ok (Table macinfo_ops v 0 0 (c_asize c =? 8))
  end.

(* the tables already made; the key is the offset and whether it is .debug_macro *)
Definition cache : Type := list (Z * bool * table).
(* dwarf_getmacros.c:271-303 cache_op_table *)
Definition cache_op_table (h : cache) (s : sec) (macro : bool) (macoff : Z) (cu : option mcu) : outcome (cache * table) :=
  match find (fun x => (fst (fst x) =? macoff) && Bool.eqb (snd (fst x)) macro) h with
  | Some x => Ok (h, snd x)
  | None =>
    t <- (if macro then get_table s macoff cu else get_macinfo_table cu) ;;
    Ok ((macoff, macro, t) :: h, t)
  end.

(* libdw.h Dwarf_Macro: the opcode, the operands as attributes, and the table's line
   offset, which dwarf_macro_getsrcfiles uses *)
Record macro := Macro { m_op : Z; m_attrs : list attr; m_line : Z }.

(* dwarf_getmacros.c:362-373 *)
Definition fake_cu (s : sec) (t : table) (start : Z) : cu :=
  Cu (s_mem s) start (s_size s) 0 (if t_64 t then 8 else 4) (t_version t) fle.
(* dwarf_getmacros.c:392-423 *)
Fixpoint operands (u : cu) (forms : list Z) (p : Z) : outcome (list attr * Z) :=
  match forms with
  | [] => Ok ([], p)
  | f :: r =>
    if negb (valid_user_form f) then Err DWARF_E_INVALID_DWARF
    else
      n <- val_len u f p ;;
      ' (l, q) <- operands u r (p + n) ;;
      Ok (Attr (if u_ver u =? 4 then 8473 else 121) f p [] :: l, q)
  end.

Context {A : Type} (cb : A -> macro -> A * Z).
(* dwarf_getmacros.c:334-440 *)
Fixpoint ops_loop (k : nat) (s : sec) (t : table) (start : Z) (accept : bool) (u : cu) (p : Z) (a : A) : outcome (A * ret) :=
  match k with
  | O => Fuel
  | S k =>
    if s_size s <=? p then Ok (a, Done)
    else
      op <- rd fle (s_mem s) p 1 ;;
      if op =? 0 then Ok (a, Done)
      else if (op =? 255) && negb accept then Ok (a, Failed DWARF_E_INVALID_OPCODE)
      else
        match forms_of (t_ops t) op with
        | None => Ok (a, Failed DWARF_E_INVALID_OPCODE)
        | Some forms =>
          match operands u forms (p + 1) with
          | Err e => Ok (a, Failed e)
          | UB => UB
          | Fuel => Fuel
          | Ok (l, q) =>
            let '(a, code) := cb a (Macro op l (t_line t)) in
            if negb (code =? 0) then Ok (a, Stopped (q - start)) else ops_loop k s t start accept u q a
          end
        end
  end.
(* dwarf_getmacros.c:305-441 read_macros *)
Definition read_macros (h : cache) (so : option sec) (macro : bool) (macoff : Z) (a : A) (offset : Z) (accept : bool) (cu : option mcu) : outcome (cache * A * ret) :=
  match so with
  | None => Ok (h, a, Failed DWARF_E_NO_ENTRY)
  | Some s =>
    if s_size s <=? macoff then Ok (h, a, Failed DWARF_E_INVALID_DWARF)
    else
      match cache_op_table h s macro macoff cu with
      | Err e => Ok (h, a, Failed e)
      | UB => UB
      | Fuel => Fuel
      | Ok (h, t) =>
        let offset := if offset =? 0 then t_hdr t else offset in
        if (offset <? 0) || (s_size s - macoff <=? offset) then UB
        else
          ' (a, r) <- ops_loop (S (length (s_mem s))) s t macoff accept (fake_cu s t (macoff + offset)) (macoff + offset) a ;;
          Ok (h, a, r)
      end
  end.

(* libdw.h:942 DWARF_GETMACROS_START: -2^63 *)
Definition START : Z := - two63.
(* dwarf_getmacros.c:459-477 token_from_offset, for the offsets that read_macros returns;
   what a call returns: 0, a token, or -1 with an error *)
Definition token_from (r : ret) (accept : bool) : ret :=
  match r with
  | Stopped off => if off =? 0 then Done else if two63 <=? off then Failed 27 else Stopped (if accept then off - two63 else off)
  | _ => r
  end.
(* dwarf_getmacros.c:479-486 offset_from_token *)
Definition accepts (token : Z) : bool := token <? 0.
Definition offset_from (token : Z) : Z := token mod two63.

(* dwarf_getmacros.c:488-503 *)
Definition gnu_getmacros (h : cache) (so : option sec) (macoff : Z) (a : A) (offset : Z) (accept : bool) (cu : option mcu) : outcome (cache * A * ret) :=
  match so with
  | None => UB
  | Some s => if s_size s <=? macoff then Ok (h, a, Failed DWARF_E_INVALID_OFFSET) else read_macros h so true macoff a offset accept cu
  end.
(* dwarf_getmacros.c:517-536 dwarf_getmacros_off *)
Definition getmacros_off (h : cache) (so : option sec) (macoff : Z) (a : A) (token : Z) : outcome (cache * A * ret) :=
  if negb (accepts token) then UB
  else
    ' (x, r) <- gnu_getmacros h so macoff a (offset_from token) true None ;;
    Ok (x, token_from r true).
(* dwarf_getmacros.c:538-592 dwarf_getmacros; so, si: .debug_macro and .debug_macinfo *)
Definition getmacros (h : cache) (so si : option sec) (c : mcu) (a : A) (token : Z) : outcome (cache * A * ret) :=
  let accept := accepts token in
  let offset := offset_from token in
  let fails := Ok (h, a, Failed DWARF_E_NO_CONSTANT) in
  match c_info c with
  | Some None => fails
  | Some (Some macoff) =>
    ' (x, r) <- read_macros h si false macoff a offset true (Some c) ;;
    Ok (x, token_from r accept)
  | None =>
    match c_gnu c, c_mac c with
    | Some (Some macoff), _ | _, Some (Some macoff) =>
      ' (x, r) <- gnu_getmacros h so macoff a offset accept (Some c) ;;
      Ok (x, token_from r accept)
    | _, _ => fails
    end
  end.
End macros.
