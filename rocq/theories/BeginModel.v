(* Model of the choice of the debugging sections: libdw/dwarf_begin_elf.c.  calloc is taken to work. *)
From Coq Require Import String Ascii.
From Verif Require Import Base.
Open Scope Z_scope.
Open Scope list_scope.

Definition bs (s : string) : bytes := map (fun c => Z.of_N (N_of_ascii c)) (list_ascii_of_string s).

(* dwarf_begin_elf.c:50-71 dwarf_scnnames *)
Definition names : list bytes :=
  [bs ".debug_info"; bs ".debug_types"; bs ".debug_abbrev"; bs ".debug_addr"; bs ".debug_aranges"; bs ".debug_line"; bs ".debug_line_str"; bs ".debug_frame";
   bs ".debug_loc"; bs ".debug_loclists"; bs ".debug_pubnames"; bs ".debug_str"; bs ".debug_str_offsets"; bs ".debug_macinfo"; bs ".debug_macro";
   bs ".debug_ranges"; bs ".debug_rnglists"; bs ".gnu_debugaltlink"].
Definition IDX_info : nat := 0.
Definition IDX_line : nat := 5.
Definition IDX_frame : nat := 7.

(* a section: whether the header can be read, its type and flags, its name if there is one, whether elf_compress works, and what elf_getdata gives then *)
Record dsec := Dsec { d_shdr : bool; d_nobits : bool; d_group : bool; d_name : option bytes; d_comp : bool; d_unz : bool; d_data : option bytes }.

Definition beq (a b : bytes) : bool := if list_eq_dec Z.eq_dec a b then true else false.
(* strncmp (a, b, n) == 0, for strings without NUL *)
Definition strn (a b : bytes) (n : nat) : bool := beq (firstn n a) (firstn n b).
(* strstr, as the offset of the first occurrence *)
Fixpoint strstr (s p : bytes) : option nat :=
  if beq (firstn (length p) s) p then Some O
  else match s with [] => None | _ :: r => match strstr r p with Some k => Some (S k) | None => None end end.
Definition at_off (o : option nat) (k : nat) : bool := match o with Some j => (j =? k)%nat | None => false end.

(* dwarf_begin_elf.c:117-142: a name of the table against the name of a section; the result says if it is the GNU compressed form *)
Definition one_name (N s : bytes) : option bool :=
  if strn s N (length N) && ((length N =? length s)%nat || ((length s =? length N + 4)%nat && at_off (strstr s (bs ".dwo")) (length N))) then Some false
  else if match s with 46 :: 122 :: r => strn r (tl N) (length N - 1) | _ => false end
          && ((length s =? length N + 1)%nat || ((length s =? length N + 5)%nat && at_off (strstr s (bs ".dwo")) (length N + 1))) then Some true
  else None.
Fixpoint find_name (l : list bytes) (s : bytes) (i : nat) : option nat :=
  match l with
  | [] => None
  | N :: r => match one_name N s with Some _ => Some i | None => find_name r s (S i) end
  end.

(* sectiondata, with the number of the section *)
Definition table := nat -> option (Z * bytes).
Definition no_table : table := fun _ => None.
Definition set_table (t : table) (i : nat) (x : Z * bytes) : table := fun j => if (j =? i)%nat then Some x else t j.

(* dwarf_begin_elf.c:74-177 check_section; None for err.  elf_compress_gnu, whose errors are ignored, is in d_data *)
Definition check_section (t : table) (k : Z) (s : dsec) (ingrp : bool) : option table :=
  if negb (d_shdr s) then None
  else if d_nobits s then Some t
  else if negb ingrp && d_group s then Some t
  else match d_name s with
       | None => None
       | Some nm =>
           match find_name names nm 0 with
           | None => Some t
           | Some i =>
               match t i with
               | Some _ => Some t
               | None =>
                   if d_comp s && negb (d_unz s) then Some t
                   else match d_data s with
                        | None => None
                        | Some [] => Some t
                        | Some b => Some (set_table t i (k, b))
                        end
               end
           end
       end.

Inductive dopen := Dopen (t : table) | Dinvalid | Dnodwarf | Dcompress | Dub.
(* dwarf_begin_elf.c:202-300 valid_p *)
Definition valid_p (t : option table) : dopen :=
  match t with
  | None => Dinvalid
  | Some t => match t IDX_info, t IDX_line, t IDX_frame with None, None, None => Dnodwarf | _, _, _ => Dopen t end
  end.

(* dwarf_begin_elf.c:303-313 global_read: the sections from number 1 on *)
Fixpoint each (t : table) (k : Z) (l : list dsec) (ingrp : bool) : option table :=
  match l with
  | [] => Some t
  | s :: r => match check_section t k s ingrp with None => None | Some t => each t (k + 1) r ingrp end
  end.
Definition global_read (secs : list dsec) : dopen := valid_p (each no_table 1 secs false).

(* dwarf_begin_elf.c:316-374 scngrp_read: the group has words, of which word cnt is read; reading past the data is UB.
   The sections of the file are those from number 1 on; number 0 is there as well and has an empty name.  grp is the section of the group *)
Definition word_of (d : bytes) (cnt : nat) : option Z := if 4 * Z.of_nat cnt + 4 <=? zlen d then Some (le_value (zsub d (4 * Z.of_nat cnt) 4)) else None.
Definition null_sec : dsec := Dsec true false false (Some []) false true (Some []).
Fixpoint group_loop (fuel : nat) (cnt : nat) (t : table) (secs : list dsec) (d : bytes) : dopen :=
  match fuel with
  | O => valid_p (Some t)
  | S fuel =>
      if 4 * Z.of_nat cnt <=? zlen d then
        match word_of d cnt with
        | None => Dub
        | Some n =>
            match (if n =? 0 then Some null_sec else znth secs (n - 1)) with
            | None => Dinvalid
            | Some s => match check_section t n s true with None => Dinvalid | Some t => group_loop fuel (S cnt) t secs d end
            end
        end
      else valid_p (Some t)
  end.
Definition scngrp_read (secs : list dsec) (grp : dsec) : dopen :=
  if negb (d_shdr grp) then Dinvalid
  else if d_comp grp && negb (d_unz grp) then Dcompress
  else match d_data grp with None => Dinvalid | Some d => group_loop (S (length d)) 1 no_table secs d end.
