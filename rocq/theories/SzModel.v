(* Model of the program size: src/size.c.  The sections of a file are a list; None if gelf_getshdr gives no header, which is an internal error and ends the program, except in the
   one-line format where the null pointer is followed: UB.  The widths of the columns and the names are left out. *)
From Verif Require Import Base.

Record zsec := Zsec { z_alloc : bool; z_write : bool; z_nobits : bool; z_size : Z; z_addr : Z }.
Record cols := Cols { c_text : Z; c_data : Z; c_bss : Z }.
(* size.c:521-541 *)
Fixpoint bsd_loop (l : list (option zsec)) (c : cols) : outcome cols :=
  match l with
  | [] => Ok c
  | None :: _ => Err 1
  | Some s :: r =>
      if negb (z_alloc s) then bsd_loop r c
      else if negb (z_write s) then bsd_loop r (Cols (u64 (c_text c + z_size s)) (c_data c) (c_bss c))
      else if z_nobits s then bsd_loop r (Cols (c_text c) (c_data c) (u64 (c_bss c + z_size s)))
      else bsd_loop r (Cols (c_text c) (u64 (c_data c + z_size s)) (c_bss c))
  end.
(* size.c:509-560 show_bsd for one file after another: the lines, with the total, and the totals (493-496); the numbers are printed as signed ones (%ld), the total in hexadecimal as an
   unsigned one *)
Record zline := Zline { l_text : Z; l_data : Z; l_bss : Z; l_dec : Z; l_hex : Z }.
Definition show (c : cols) : zline := Zline (s64 (c_text c)) (s64 (c_data c)) (s64 (c_bss c)) (s64 (c_text c + c_data c + c_bss c)) (u64 (c_text c + c_data c + c_bss c)).
Fixpoint bsd_files (files : list (list (option zsec))) (tot : cols) : outcome (list zline * cols) :=
  match files with
  | [] => Ok ([], tot)
  | f :: r => c <- bsd_loop f (Cols 0 0 0) ;;
      x <- bsd_files r (Cols (u64 (c_text tot + c_text c)) (u64 (c_data tot + c_data c)) (u64 (c_bss tot + c_bss c))) ;;
      Ok (show c :: fst x, snd x)
  end.
(* size.c:564-579 show_bsd_totals: unsigned numbers *)
Definition show_totals (c : cols) : zline :=
  Zline (c_text c) (c_data c) (c_bss c) (u64 (c_text c + c_data c + c_bss c)) (u64 (c_text c + c_data c + c_bss c)).
(* size.c:400-456 show_sysv: the sizes and addresses of the sections, and the total *)
Fixpoint sysv_loop (l : list (option zsec)) (total : Z) : list (Z * Z) * Z :=
  match l with
  | [] => ([], total)
  | Some s :: r => if z_alloc s then let x := sysv_loop r (u64 (total + z_size s)) in ((z_size s, z_addr s) :: fst x, snd x) else sysv_loop r total
  | None :: r => sysv_loop r total
  end.
Definition show_sysv (l : list (option zsec)) : outcome (list (Z * Z) * Z) :=
  if existsb (fun s => match s with None => true | Some _ => false end) l then Err 1 else Ok (sysv_loop l 0).
(* size.c:460-500 show_sysv_one_line *)
Fixpoint one_line (l : list (option zsec)) (total : Z) : outcome (list Z * Z) :=
  match l with
  | [] => Ok ([], total)
  | None :: _ => UB
  | Some s :: r => if negb (z_alloc s) then one_line r total else x <- one_line r (u64 (total + z_size s)) ;; Ok (z_size s :: fst x, snd x)
  end.
