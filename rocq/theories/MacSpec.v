(* Macro information as DWARF 5 (section 6.3, 7.23) and its GNU predecessor write it. *)
From Verif Require Import Base LebSpec Slice CfiSpec FormSpec.

(* an entry: its opcode and its operands, each with its form, its value and its bytes *)
Record entry := Entry { e_op : Z; e_operands : list (Z * value * bytes) }.
Definition operand_bytes (l : list (Z * value * bytes)) : bytes := concat (map snd l).
Definition entry_bytes (x : entry) : bytes := e_op x :: operand_bytes (e_operands x).
Definition entries_bytes (l : list entry) : bytes := concat (map entry_bytes l).

(* table 7.27 of DWARF 5, with the operands of section 6.3.2 and 6.3.3 *)
Definition standard (op : Z) : option (list Z) :=
  match op with
  | 1 | 2 => Some [15; 8]           (* define, undef: line udata, string *)
  | 3 => Some [15; 15]              (* start_file: line, file *)
  | 4 => Some []                    (* end_file *)
  | 5 | 6 => Some [15; 14]          (* define_strp, undef_strp *)
  | 7 | 10 => Some [23]             (* import, import_sup *)
  | 8 | 9 => Some [15; 29]          (* define_sup, undef_sup *)
  | 11 | 12 => Some [15; 26]        (* define_strx, undef_strx *)
  | _ => None
  end.
(* .debug_macinfo: DWARF 4 table 7.28 *)
Definition old_standard (op : Z) : option (list Z) :=
  match op with
  | 1 | 2 | 255 => Some [15; 8]     (* define, undef, vendor_ext *)
  | 3 => Some [15; 15]
  | 4 => Some []
  | _ => None
  end.
(* the forms an operand may have: DWARF 5 section 6.3.1, table of forms: block, block1,
   block2, block4, data1, data2, data4, data8, data16, flag, line_strp, sdata,
   sec_offset, string, strp, strp_sup, strx, strx1 to strx4, udata *)
Definition operand_forms : list Z := [9; 10; 3; 4; 11; 5; 6; 7; 30; 12; 31; 13; 23; 8; 14; 29; 26; 37; 38; 39; 40; 15].

(* a definition: opcode, how the number of operands is written, their forms *)
Record def := Def { d_op : Z; d_count : bytes; d_forms : list Z }.
Definition def_bytes (d : def) : bytes := d_op d :: d_count d ++ d_forms d.
Definition def_ok (d : def) : Prop := 1 <= d_op d <= 255 /\ uleb_of (zlen (d_forms d)) (d_count d).

(* a unit of .debug_macro *)
Record munit := MUnit { mu_version : Z; mu_wide : bool; mu_line : option Z; mu_defs : option (list def); mu_entries : list entry }.
(* the operands an opcode has: the last definition, or the standard *)
Fixpoint defined (l : list def) (op : Z) : option (list Z) :=
  match l with
  | [] => standard op
  | d :: l => if existsb (fun x => d_op x =? op) l then defined l op else if d_op d =? op then Some (d_forms d) else defined l op
  end.
Definition operands_of (m : munit) (op : Z) : option (list Z) := match mu_defs m with None => standard op | Some l => defined l op end.
Definition off_size (wide : bool) : Z := if wide then 8 else 4.
Definition line_bytes (fle : bool) (m : munit) : bytes := match mu_line m with Some v => enc fle (off_size (mu_wide m)) v | None => [] end.
Definition defs_bytes (m : munit) : bytes := match mu_defs m with Some l => zlen l :: concat (map def_bytes l) | None => [] end.
Definition header_bytes (fle : bool) (m : munit) : bytes :=
  enc fle 2 (mu_version m) ++
  [(if mu_wide m then 1 else 0) + (match mu_line m with Some _ => 2 | None => 0 end) + (match mu_defs m with Some _ => 4 | None => 0 end)] ++
  line_bytes fle m ++ defs_bytes m.
(* entries and the 0 that ends them *)
Definition unit_bytes (fle : bool) (m : munit) : bytes := header_bytes fle m ++ entries_bytes (mu_entries m) ++ [0].

(* an entry with operands as its opcode has them *)
Definition entry_ok (p : params) (forms : Z -> option (list Z)) (x : entry) : Prop :=
  1 <= e_op x <= 255 /\ forms (e_op x) = Some (map (fun o => fst (fst o)) (e_operands x)) /\
  Forall (fun o => In (fst (fst o)) operand_forms /\ holds p (fst (fst o)) (snd (fst o)) (snd o)) (e_operands x).
Definition unit_ok (fle : bool) (m : munit) : Prop :=
  (mu_version m = 4 \/ mu_version m = 5) /\
  match mu_line m with Some v => 0 <= v < 256 ^ off_size (mu_wide m) | None => True end /\
  match mu_defs m with
  | Some l => Forall def_ok l /\ zlen l < 256 /\ exists op, 1 <= op <= 255 /\ defined l op = None    (* not all 255 are defined *)
  | None => True
  end /\
  Forall (entry_ok (Params fle 8 (off_size (mu_wide m)) (mu_version m)) (operands_of m)) (mu_entries m).

(* what an entry at an offset of the section is reported as: opcode, and where the
   operands of which form are *)
Fixpoint places (p : Z) (l : list (Z * value * bytes)) : list (Z * Z) :=
  match l with [] => [] | o :: l => (fst (fst o), p) :: places (p + zlen (snd o)) l end.
(* the calls of the callback, until it returns something else than 0: then the offset
   behind the entry *)
Fixpoint visit {A} (cb : A -> Z -> list (Z * Z) -> A * Z) (p : Z) (a : A) (l : list entry) : A * option Z :=
  match l with
  | [] => (a, None)
  | x :: l =>
    let q := p + zlen (entry_bytes x) in
    let '(a, code) := cb a (e_op x) (places (p + 1) (e_operands x)) in
    if code =? 0 then visit cb q a l else (a, Some q)
  end.
