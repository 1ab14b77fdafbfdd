(* The line number information of DWARF 2 to 5 (section 6.2), independent of the code. *)
From Verif Require Import Base LebSpec Slice CfiSpec.

(* The parameters of a program from the header: minimum_instruction_length,
   maximum_operations_per_instruction, default_is_stmt, line_base, line_range, opcode_base and
   standard_opcode_lengths. *)
Record params := Params { minimum : Z; maximum : Z; default_stmt : bool; base : Z; range : Z; opcode_base : Z; lengths : list Z }.
(* The registers (6.2.2) and the rows of the table *)
Record regs := Regs { address : Z; op_index : Z; file : Z; lineno : Z; column : Z; is_stmt : bool; basic_block : bool; prologue_end : bool; epilogue_begin : bool; isa : Z; discriminator : Z }.
Record row := Row { r_regs : regs; r_end : bool }.
Definition initial (h : params) : regs := Regs 0 0 1 1 0 (default_stmt h) false false false 0 0.
(* A source file as given: name, directory index, time, length. *)
Record source := Source { name : bytes; dir : Z; mtime : Z; size : Z }.

Inductive instr :=
  | Special (x : Z)
  | Copy | Advance_pc (n : Z) | Advance_line (n : Z) | Set_file (n : Z) | Set_column (n : Z) | Negate_stmt | Set_basic_block
  | Const_add_pc | Fixed_advance_pc (n : Z) | Set_prologue_end | Set_epilogue_begin | Set_isa (n : Z)
  | Other_standard (x : Z) (args : list Z)
  | End_sequence | Set_address (n : Z) | Define_file (f : source) | Set_discriminator (n : Z) | Other_extended (x : Z) (b : bytes).

(* 6.2.5.1 *)
Definition advance (h : params) (n : Z) (r : regs) : regs :=
  Regs (address r + minimum h * ((op_index r + n) / maximum h)) ((op_index r + n) mod maximum h) (file r) (lineno r) (column r) (is_stmt r)
       (basic_block r) (prologue_end r) (epilogue_begin r) (isa r) (discriminator r).
Definition with_line (v : Z) (r : regs) := Regs (address r) (op_index r) (file r) v (column r) (is_stmt r) (basic_block r) (prologue_end r) (epilogue_begin r) (isa r) (discriminator r).
Definition with_address (v : Z) (r : regs) := Regs v 0 (file r) (lineno r) (column r) (is_stmt r) (basic_block r) (prologue_end r) (epilogue_begin r) (isa r) (discriminator r).
Definition after_row (r : regs) := Regs (address r) (op_index r) (file r) (lineno r) (column r) (is_stmt r) false false false (isa r) 0.
(* The registers, the rows and the files after an instruction (6.2.5.1 - 6.2.5.3) *)
Definition exec (h : params) (i : instr) (s : regs * list row * list source) : regs * list row * list source :=
  let '(r, rows, fs) := s in
  match i with
  | Special x => let r' := advance h ((x - opcode_base h) / range h) (with_line (lineno r + base h + (x - opcode_base h) mod range h) r) in (after_row r', rows ++ [Row r' false], fs)
  | Copy => (after_row r, rows ++ [Row r false], fs)
  | Advance_pc n => (advance h n r, rows, fs)
  | Advance_line n => (with_line (lineno r + n) r, rows, fs)
  | Set_file n => (Regs (address r) (op_index r) n (lineno r) (column r) (is_stmt r) (basic_block r) (prologue_end r) (epilogue_begin r) (isa r) (discriminator r), rows, fs)
  | Set_column n => (Regs (address r) (op_index r) (file r) (lineno r) n (is_stmt r) (basic_block r) (prologue_end r) (epilogue_begin r) (isa r) (discriminator r), rows, fs)
  | Negate_stmt => (Regs (address r) (op_index r) (file r) (lineno r) (column r) (negb (is_stmt r)) (basic_block r) (prologue_end r) (epilogue_begin r) (isa r) (discriminator r), rows, fs)
  | Set_basic_block => (Regs (address r) (op_index r) (file r) (lineno r) (column r) (is_stmt r) true (prologue_end r) (epilogue_begin r) (isa r) (discriminator r), rows, fs)
  | Const_add_pc => (advance h ((255 - opcode_base h) / range h) r, rows, fs)
  | Fixed_advance_pc n => (with_address (address r + n) r, rows, fs)
  | Set_prologue_end => (Regs (address r) (op_index r) (file r) (lineno r) (column r) (is_stmt r) (basic_block r) true (epilogue_begin r) (isa r) (discriminator r), rows, fs)
  | Set_epilogue_begin => (Regs (address r) (op_index r) (file r) (lineno r) (column r) (is_stmt r) (basic_block r) (prologue_end r) true (isa r) (discriminator r), rows, fs)
  | Set_isa n => (Regs (address r) (op_index r) (file r) (lineno r) (column r) (is_stmt r) (basic_block r) (prologue_end r) (epilogue_begin r) n (discriminator r), rows, fs)
  | Other_standard _ _ | Other_extended _ _ => s
  | End_sequence => (initial h, rows ++ [Row r true], fs)
  | Set_address n => (with_address n r, rows, fs)
  | Define_file f => (r, rows, fs ++ [f])
  | Set_discriminator n => (Regs (address r) (op_index r) (file r) (lineno r) (column r) (is_stmt r) (basic_block r) (prologue_end r) (epilogue_begin r) (isa r) n, rows, fs)
  end.
Definition exec_all (h : params) (l : list instr) (s : regs * list row * list source) := fold_left (fun s i => exec h i s) l s.

(* The bytes of an instruction (6.2.5.1 - 6.2.5.3, 7.22).  The number of the operands of a
   standard opcode is in the header. *)
Definition text (s : bytes) : Prop := Forall (fun c => c <> 0) s /\ bytes_ok s.
Inductive file_bytes : source -> bytes -> Prop :=
  | F_entry : forall n d m s xd xm xs, text n -> uleb_of d xd -> uleb_of m xm -> uleb_of s xs -> file_bytes (Source n d m s) (n ++ [0] ++ xd ++ xm ++ xs).
Definition standard_op (h : params) (x n : Z) : Prop := 0 < x < opcode_base h /\ znth (lengths h) (x - 1) = Some n.
Inductive ulebs : list Z -> bytes -> Prop :=
  | Us_nil : ulebs [] []
  | Us_cons : forall n l b c, uleb_of n b -> ulebs l c -> ulebs (n :: l) (b ++ c).
Inductive extended_bytes (le : bool) (asize : Z) : instr -> Z -> bytes -> Prop :=
  | X_end : extended_bytes le asize End_sequence 1 []
  | X_address : forall n, 0 <= n < 256 ^ asize -> extended_bytes le asize (Set_address n) 2 (enc le asize n)
  | X_file : forall f b, file_bytes f b -> extended_bytes le asize (Define_file f) 3 b
  | X_discriminator : forall n b, uleb_of n b -> extended_bytes le asize (Set_discriminator n) 4 b
  | X_other : forall x b, 5 <= x < 256 \/ x = 0 -> extended_bytes le asize (Other_extended x b) x b.
Inductive instr_bytes (le : bool) (asize : Z) (h : params) : instr -> bytes -> Prop :=
  | I_special : forall x, opcode_base h <= x < 256 -> range h <> 0 -> instr_bytes le asize h (Special x) [x]
  | I_copy : standard_op h 1 0 -> instr_bytes le asize h Copy [1]
  | I_advance_pc : forall n b, standard_op h 2 1 -> uleb_of n b -> instr_bytes le asize h (Advance_pc n) (2 :: b)
  | I_advance_line : forall n b, standard_op h 3 1 -> sleb_of n b -> instr_bytes le asize h (Advance_line n) (3 :: b)
  | I_set_file : forall n b, standard_op h 4 1 -> uleb_of n b -> instr_bytes le asize h (Set_file n) (4 :: b)
  | I_set_column : forall n b, standard_op h 5 1 -> uleb_of n b -> instr_bytes le asize h (Set_column n) (5 :: b)
  | I_negate_stmt : standard_op h 6 0 -> instr_bytes le asize h Negate_stmt [6]
  | I_basic_block : standard_op h 7 0 -> instr_bytes le asize h Set_basic_block [7]
  | I_const_add_pc : standard_op h 8 0 -> range h <> 0 -> instr_bytes le asize h Const_add_pc [8]
  | I_fixed : forall n, standard_op h 9 1 -> 0 <= n < 65536 -> instr_bytes le asize h (Fixed_advance_pc n) (9 :: enc le 2 n)
  | I_prologue : standard_op h 10 0 -> instr_bytes le asize h Set_prologue_end [10]
  | I_epilogue : standard_op h 11 0 -> instr_bytes le asize h Set_epilogue_begin [11]
  | I_isa : forall n b, standard_op h 12 1 -> uleb_of n b -> instr_bytes le asize h (Set_isa n) (12 :: b)
  | I_other : forall x l b, standard_op h x (zlen l) -> 12 < x -> ulebs l b -> instr_bytes le asize h (Other_standard x l) (x :: b)
  | I_extended : forall i x b y, extended_bytes le asize i x b -> uleb_of (1 + zlen b) y -> 0 < opcode_base h -> instr_bytes le asize h i (0 :: y ++ x :: b).
(* A program: instructions with their bytes *)
Definition program (le : bool) (asize : Z) (h : params) (l : list (instr * bytes)) : Prop := Forall (fun x => instr_bytes le asize h (fst x) (snd x)) l.
Definition program_bytes (l : list (instr * bytes)) : bytes := concat (map snd l).

(* The header (6.2.4).  The sizes of offsets and the version; the directories and files of
   versions 2 to 4: the files are numbered from 1. *)
Definition length_bytes (le : bool) (osize n : Z) : bytes := if osize =? 4 then enc le 4 n else enc le 4 4294967295 ++ enc le 8 n.
Definition params_bytes (ver : Z) (h : params) : bytes :=
  [minimum h] ++ (if 4 <=? ver then [maximum h] else []) ++ [if default_stmt h then 1 else 0; base h mod 256; range h; opcode_base h] ++ lengths h.
Definition params_ok (ver : Z) (h : params) : Prop :=
  is_u8 (minimum h) /\ (if 4 <=? ver then 0 < maximum h < 256 else maximum h = 1) /\ -128 <= base h < 128 /\ is_u8 (range h) /\ 0 < opcode_base h < 256 /\ zlen (lengths h) = opcode_base h - 1 /\ bytes_ok (lengths h).
Inductive file_list : list source -> bytes -> Prop :=
  | FL_nil : file_list [] []
  | FL_cons : forall f l b c, file_bytes f b -> name f <> [] -> file_list l c -> file_list (f :: l) (b ++ c).
Definition dir_list (dirs : list bytes) : bytes := concat (map (fun d => d ++ [0]) dirs).
Inductive tables_old (dirs : list bytes) (files : list source) : bytes -> Prop :=
  | T_old : forall b, Forall (fun d => d <> [] /\ text d) dirs -> file_list files b -> tables_old dirs files (dir_list dirs ++ [0] ++ b ++ [0]).
(* The whole: version, header length and so on.  [tabs] are the directories and files. *)
Definition unit_bytes (le : bool) (osize asize ver : Z) (h : params) (tabs prog : bytes) : bytes :=
  let hdr := params_bytes ver h ++ tabs in
  let body := enc le 2 ver ++ (if 5 <=? ver then [asize; 0] else []) ++ enc le osize (zlen hdr) ++ hdr ++ prog in
  length_bytes le osize (zlen body) ++ body.

(* The name of a file: absolute, or relative to its directory.  Directory 0 is the compilation
   directory, which may be unknown. *)
Definition full_name (dirs : list (option bytes)) (f : source) : bytes :=
  match name f with
  | 47 :: _ => name f
  | _ => match znth dirs (dir f) with Some (Some d) => d ++ [47] ++ name f | _ => name f end
  end.
(* The order of the rows of the whole table: by address; at the same address the end of a
   sequence comes first; otherwise in the order of the program. *)
Definition row_before (a b : nat * row) : Prop :=
  let x := snd a in let y := snd b in
  address (r_regs x) < address (r_regs y) \/
  address (r_regs x) = address (r_regs y) /\ (r_end x = true /\ r_end y = false \/ r_end x = r_end y /\ (fst a < fst b)%nat).

(* A sequence of a table (6.2.1): rows in the order of addresses, the end above all others. *)
Definition sequence (s : list row) : Prop :=
  exists b z, s = b ++ [z] /\ Forall (fun x => r_end x = false /\ address (r_regs x) < address (r_regs z)) b /\ r_end z = true /\
    (forall i j x y, (i < j)%nat -> nth_error s i = Some x -> nth_error s j = Some y -> address (r_regs x) <= address (r_regs y)).
Definition apart (s t : list row) : Prop :=
  (forall x y, In x s -> In y t -> address (r_regs x) <= address (r_regs y)) \/ (forall x y, In x s -> In y t -> address (r_regs y) <= address (r_regs x)).
Definition sequences (l : list (list row)) : Prop := Forall sequence l /\ forall i j s t, i <> j -> nth_error l i = Some s -> nth_error l j = Some t -> apart s t.
(* The row of an address: it stays in force up to the next row of its sequence. *)
Definition row_of (l : list (list row)) (a : Z) (w : row) : Prop :=
  exists s k w', In s l /\ nth_error s k = Some w /\ nth_error s (S k) = Some w' /\ address (r_regs w) <= a < address (r_regs w').
