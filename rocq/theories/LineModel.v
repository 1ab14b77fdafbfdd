(* libdw line tables: dwarf_getsrclines.c, dwarf_getsrc_die.c, dwarf_filesrc.c.  malloc and
   libdw_alloc never fail.  Pointers are positions in .debug_line; reading outside it is UB.
   qsort is a parameter [qs], a function giving some sorted permutation. *)
From Verif Require Import Base LebModel DwModel CfiModel FormModel.

Definition DWARF_E_INVALID_DIR_IDX := 29.
Definition DWARF_E_ADDR_OUTOFRANGE := 30.

(* What read_srclines is told about the file: .debug_line, byte order, the size of an address,
   the compilation directory and the string sections. *)
Record lctx := LC { n_mem : bytes; n_fle : bool; n_asize : Z; n_comp : option bytes; n_str : option bytes; n_lstr : option bytes; n_stro : option bytes }.

(* libdwP.h:271-290 struct Dwarf_Line_s, without the pointer to the files *)
Record line := Line { n_addr : Z; n_file : Z; n_line : Z; n_col : Z; n_stmt : Z; n_bb : bool; n_end : bool; n_pe : bool; n_eb : bool; n_op : Z; n_isa : Z; n_disc : Z }.
(* libdwP.h:258-263 struct Dwarf_Fileinfo_s *)
Record fileinfo := File { f_name : bytes; f_mtime : Z; f_length : Z }.
(* dwarf_getsrclines.c:80-96 struct line_state; the lists of lines and of files, last first *)
Record lstate := LS { s_addr : Z; s_op : Z; s_file : Z; s_line : Z; s_col : Z; s_stmt : Z; s_bb : bool; s_pe : bool; s_eb : bool; s_isa : Z; s_disc : Z;
                      s_lines : list line; s_files : list fileinfo }.
(* The header: dwarf_getsrclines.c:256-293; [g_std] is the position standard_opcode_lengths. *)
Record lhdr := LH { g_min : Z; g_max : Z; g_stmt : Z; g_base : Z; g_range : Z; g_opbase : Z; g_std : Z; g_dirs : list (option bytes) }.

(* dwarf_getsrclines.c:98-105 run_advance_pc: unsigned int arithmetic, also in the product *)
Definition advance_pc (h : lhdr) (s : lstate) (adv : Z) : lstate :=
  let n := u32 (s_op s + adv) in
  LS (u64 (s_addr s + u32 (g_min h * (n / g_max h)))) (n mod g_max h) (s_file s) (s_line s) (s_col s) (s_stmt s) (s_bb s) (s_pe s) (s_eb s) (s_isa s) (s_disc s) (s_lines s) (s_files s).
(* dwarf_getsrclines.c:107-146 add_new_line with NEW_LINE :668-678.  A value that does not fit
   its field is an error. *)
Definition new_line (s : lstate) (end_seq : bool) : outcome lstate :=
  if negb (s_op s <? 256) || negb ((- two31 <=? s_line s) && (s_line s <? two31)) || negb (s_col s <? 65536) || negb (s_stmt s <? 2) || negb (s_isa s <? 256) || negb (s_disc s <? 2 ^ 24)
  then Err DWARF_E_INVALID_DEBUG_LINE
  else Ok (LS (s_addr s) (s_op s) (s_file s) (s_line s) (s_col s) (s_stmt s) (s_bb s) (s_pe s) (s_eb s) (s_isa s) (s_disc s)
             (Line (s_addr s) (s_file s) (s_line s) (s_col s) (s_stmt s) (s_bb s) end_seq (s_pe s) (s_eb s) (s_op s) (s_isa s) (s_disc s) :: s_lines s) (s_files s)).
(* :711-714, :851-854 *)
Definition reset_flags (s : lstate) : lstate := LS (s_addr s) (s_op s) (s_file s) (s_line s) (s_col s) (s_stmt s) false false false (s_isa s) 0 (s_lines s) (s_files s).
(* :169-186, :740-750 *)
Definition reset_regs (h : lhdr) (lines : list line) (files : list fileinfo) : lstate := LS 0 0 1 1 0 (g_stmt h) false false false 0 0 lines files.
(* setters *)
Definition set_line (s : lstate) (v : Z) := LS (s_addr s) (s_op s) (s_file s) v (s_col s) (s_stmt s) (s_bb s) (s_pe s) (s_eb s) (s_isa s) (s_disc s) (s_lines s) (s_files s).
Definition set_file (s : lstate) (v : Z) := LS (s_addr s) (s_op s) v (s_line s) (s_col s) (s_stmt s) (s_bb s) (s_pe s) (s_eb s) (s_isa s) (s_disc s) (s_lines s) (s_files s).
Definition set_col (s : lstate) (v : Z) := LS (s_addr s) (s_op s) (s_file s) (s_line s) v (s_stmt s) (s_bb s) (s_pe s) (s_eb s) (s_isa s) (s_disc s) (s_lines s) (s_files s).
Definition set_stmt (s : lstate) (v : Z) := LS (s_addr s) (s_op s) (s_file s) (s_line s) (s_col s) v (s_bb s) (s_pe s) (s_eb s) (s_isa s) (s_disc s) (s_lines s) (s_files s).
Definition set_marks (s : lstate) (bb pe eb : bool) := LS (s_addr s) (s_op s) (s_file s) (s_line s) (s_col s) (s_stmt s) bb pe eb (s_isa s) (s_disc s) (s_lines s) (s_files s).
Definition set_isa (s : lstate) (v : Z) := LS (s_addr s) (s_op s) (s_file s) (s_line s) (s_col s) (s_stmt s) (s_bb s) (s_pe s) (s_eb s) v (s_disc s) (s_lines s) (s_files s).
Definition set_disc (s : lstate) (v : Z) := LS (s_addr s) (s_op s) (s_file s) (s_line s) (s_col s) (s_stmt s) (s_bb s) (s_pe s) (s_eb s) (s_isa s) v (s_lines s) (s_files s).
Definition set_addr (s : lstate) (a o : Z) := LS a o (s_file s) (s_line s) (s_col s) (s_stmt s) (s_bb s) (s_pe s) (s_eb s) (s_isa s) (s_disc s) (s_lines s) (s_files s).
Definition add_file (s : lstate) (f : fileinfo) := LS (s_addr s) (s_op s) (s_file s) (s_line s) (s_col s) (s_stmt s) (s_bb s) (s_pe s) (s_eb s) (s_isa s) (s_disc s) (s_lines s) (f :: s_files s).

(* :495-518, :789-811, :622-638: an absolute name, or the directory, a slash and the name;
   the name alone if the directory is unknown.  47 is the slash. *)
Definition join (dir : option bytes) (fname : bytes) : bytes :=
  match fname with
  | 47 :: _ => fname
  | _ => match dir with Some d => d ++ 47 :: fname | None => fname end
  end.
Definition bad {A} : outcome A := Err DWARF_E_INVALID_DEBUG_LINE.
Definition memchr_ (c : lctx) (p e : Z) : outcome (option Z) := memchr0 (S (length (n_mem c))) (n_mem c) p (e - p).
(* "if (linep >= lineendp) goto invalid_data; get_uleb128" *)
Definition uleb (c : lctx) (p e : Z) : outcome (Z * Z) := if e <=? p then bad else get_uleb128 (n_mem c) p e.

(* :475-528, :766-815: name, directory index, time, length.  The error for a bad directory
   differs; in DW_LNE_define_file the index is an unsigned int. *)
Definition file_entry (c : lctx) (dirs : list (option bytes)) (p e : Z) (narrow : bool) : outcome (fileinfo * Z) :=
  r <- memchr_ c p e ;;
  match r with
  | None => bad
  | Some q =>
    let fname := zsub (n_mem c) p (q - p) in
    ' (d, p1) <- uleb c (q + 1) e ;;
    let d := if narrow then u32 d else d in
    match znth dirs d with
    | None => Err (if narrow then DWARF_E_INVALID_DEBUG_LINE else DWARF_E_INVALID_DIR_IDX)
    | Some dir =>
      ' (mtime, p2) <- uleb c p1 e ;;
      ' (len, p3) <- uleb c p2 e ;;
      Ok (File (join dir fname) mtime len, p3)
    end
  end.

(* One opcode, :680-982: p is the position of the opcode, e the end of the table. *)
Definition std_len (c : lctx) (h : lhdr) (op n : Z) : outcome unit := v <- byte_at (n_mem c) (g_std h + op) ;; if v =? n then Ok tt else bad.
Fixpoint skip_args (c : lctx) (n : nat) (p e : Z) : outcome Z :=
  match n with O => Ok p | S k => ' (_, q) <- uleb c p e ;; skip_args c k q e end.
Definition extended (c : lctx) (h : lhdr) (s : lstate) (p e : Z) : outcome (lstate * Z) :=
  if e - p <? 2 then bad
  else len <- byte_at (n_mem c) p ;;
    let p := p + 1 in
    if u64 (e - p) <? len then bad
    else op <- byte_at (n_mem c) p ;;
      let p := p + 1 in
      if op =? 1 then s' <- new_line s true ;; Ok (reset_regs h (s_lines s') (s_files s'), p)         (* DW_LNE_end_sequence *)
      else if op =? 2 then                                                                            (* DW_LNE_set_address *)
        if e - p <? u8 (n_asize c) then bad
        else a <- read_address (n_fle c) (n_mem c) p (n_asize c) ;; Ok (set_addr s a 0, p + n_asize c)
      else if op =? 3 then ' (f, q) <- file_entry c (g_dirs h) p e true ;; Ok (add_file s f, q)       (* DW_LNE_define_file *)
      else if op =? 4 then                                                                            (* DW_LNE_set_discriminator *)
        _ <- std_len c h op 1 ;; ' (v, q) <- uleb c p e ;; Ok (set_disc s (u32 v), q)
      else if u64 (e - (p - 1)) <? len then bad else Ok (s, p + (len - 1)).
Definition standard (c : lctx) (h : lhdr) (s : lstate) (op p e : Z) : outcome (lstate * Z) :=
  if op =? 1 then _ <- std_len c h op 0 ;; s' <- new_line s false ;; Ok (reset_flags s', p)           (* DW_LNS_copy *)
  else if op =? 2 then _ <- std_len c h op 1 ;; ' (v, q) <- uleb c p e ;; Ok (advance_pc h s (u32 v), q)  (* advance_pc *)
  else if op =? 3 then                                                                                (* advance_line: int s128 *)
    _ <- std_len c h op 1 ;; if e <=? p then bad else ' (v, q) <- get_sleb128 (n_mem c) p e ;; Ok (set_line s (s64 (s_line s + s32 v)), q)
  else if op =? 4 then _ <- std_len c h op 1 ;; ' (v, q) <- uleb c p e ;; Ok (set_file s (u32 v), q)  (* set_file *)
  else if op =? 5 then _ <- std_len c h op 1 ;; ' (v, q) <- uleb c p e ;; Ok (set_col s (u32 v), q)   (* set_column *)
  else if op =? 6 then _ <- std_len c h op 0 ;; Ok (set_stmt s (u8 (1 - s_stmt s)), p)                (* negate_stmt *)
  else if op =? 7 then _ <- std_len c h op 0 ;; Ok (set_marks s true (s_pe s) (s_eb s), p)            (* set_basic_block *)
  else if op =? 8 then                                                                                (* const_add_pc *)
    _ <- std_len c h op 0 ;; if g_range h =? 0 then bad else Ok (advance_pc h s (Z.quot (255 - g_opbase h) (g_range h)), p)
  else if op =? 9 then                                                                                (* fixed_advance_pc *)
    _ <- std_len c h op 1 ;; if e - p <? 2 then bad else v <- rd (n_fle c) (n_mem c) p 2 ;; Ok (set_addr s (u64 (s_addr s + v)) 0, p + 2)
  else if op =? 10 then _ <- std_len c h op 0 ;; Ok (set_marks s (s_bb s) true (s_eb s), p)           (* set_prologue_end *)
  else if op =? 11 then _ <- std_len c h op 0 ;; Ok (set_marks s (s_bb s) (s_pe s) true, p)           (* set_epilogue_begin *)
  else _ <- std_len c h op 1 ;; ' (v, q) <- uleb c p e ;; Ok (set_isa s (u32 v), q).                  (* set_isa *)
Definition step (c : lctx) (h : lhdr) (s : lstate) (p e : Z) : outcome (lstate * Z) :=
  op <- byte_at (n_mem c) p ;;
  let p := p + 1 in
  if g_opbase h <=? op then
    if g_range h =? 0 then bad
    else let s1 := set_line s (s64 (s_line s + (g_base h + (op - g_opbase h) mod g_range h))) in
         s2 <- new_line (advance_pc h s1 ((op - g_opbase h) / g_range h)) false ;; Ok (reset_flags s2, p)
  else if op =? 0 then extended c h s p e
  else if op <=? 12 then standard c h s op p e
  else n <- byte_at (n_mem c) (g_std h + op) ;; q <- skip_args c (Z.to_nat n) p e ;; Ok (s, q).
(* :680-983 *)
Fixpoint run (fuel : nat) (c : lctx) (h : lhdr) (s : lstate) (p e : Z) : outcome lstate :=
  if e <=? p then Ok s
  else match fuel with
       | O => Fuel
       | S k => ' (s', q) <- step c h s p e ;; run k c h s' q e
       end.

(* :313-327, :382-398: the directories of versions before 5, counted first and then stored; one
   pass here, as both see the same bytes *)
Fixpoint dirs_old (fuel : nat) (c : lctx) (p e : Z) : outcome (list (option bytes) * Z) :=
  match fuel with
  | O => Fuel
  | S k =>
    x <- byte_at (n_mem c) p ;;
    if x =? 0 then Ok ([], p + 1)
    else r <- memchr_ c p e ;;
         match r with
         | None => bad
         | Some q => ' (l, z) <- dirs_old k c (q + 1) e ;; Ok (Some (zsub (n_mem c) p (q - p)) :: l, z)
         end
  end.
(* :470-532 *)
Fixpoint files_old (fuel : nat) (c : lctx) (dirs : list (option bytes)) (p e : Z) (files : list fileinfo) : outcome (list fileinfo * Z) :=
  match fuel with
  | O => Fuel
  | S k =>
    x <- byte_at (n_mem c) p ;;
    if x =? 0 then Ok (files, p + 1)
    else ' (f, q) <- file_entry c dirs p e false ;; files_old k c dirs q e (f :: files)
  end.

(* libdwP.h:531-560 *)
Definition valid_user_form (f : Z) : bool := existsb (Z.eqb f) [9; 10; 3; 4; 11; 5; 6; 7; 30; 12; 31; 13; 23; 8; 14; 29; 26; 37; 38; 39; 40; 15].
(* :330-352, :535-559: n pairs of content type and form, of type uint16_t *)
Fixpoint formats (c : lctx) (n : nat) (p e : Z) : outcome (list (Z * Z) * Z) :=
  match n with
  | O => Ok ([], p)
  | S k =>
    if u64 (e - p) <? 1 then bad else ' (desc, p1) <- get_uleb128 (n_mem c) p e ;;
    if u64 (e - p1) <? 1 then bad else ' (form, p2) <- get_uleb128 (n_mem c) p1 e ;;
    if negb (valid_user_form (u16 form)) then bad
    else ' (l, z) <- formats c k p2 e ;; Ok ((u16 desc, u16 form) :: l, z)
  end.
(* the index of the last pair of the given type *)
Definition last_of (d : Z) (l : list (Z * Z)) : option nat :=
  fold_left (fun r i => match nth_error l i with Some (d', _) => if d' =? d then Some i else r | None => r end) (seq 0 (length l)) None.
(* :302-311 fake_cu *)
Definition fake_cu (c : lctx) (start e osize : Z) : cu := Cu (n_mem c) start e (n_asize c) osize 5 (n_fle c).
(* strlen and stpcpy of a string: the bytes before the first zero *)
Definition c_string (b : bytes) (p : Z) : outcome bytes :=
  r <- memchr0 (S (length b)) b p (zlen b + 1 - p) ;;
  match r with Some q => Ok (zsub b p (q - p)) | None => UB end.
Definition str_bytes (c : lctx) (s : str_at) : outcome bytes :=
  match s with
  | InUnit p => c_string (n_mem c) p
  | InStr o => match n_str c with Some b => c_string b o | None => UB end
  | InLineStr o => match n_lstr c with Some b => c_string b o | None => UB end
  end.
(* One entry, :405-424, :576-602: for every form in turn the value at the path's place and at
   the directory index's place, if they can be read, and the position after them.  The
   structure fake_cu has no base in .debug_str_offsets, so zero. *)
Fixpoint entry5 (c : lctx) (u : cu) (forms : list (Z * Z)) (m : nat) (path idx : option nat) (p e : Z) (name : option str_at) (dir : option Z)
  : outcome (option str_at * option Z * Z) :=
  match forms with
  | [] => Ok (name, dir, p)
  | (_, form) :: r =>
    let here (o : option nat) := match o with Some i => Nat.eqb i m | None => false end in
    name' <- (if here path then match formstring u (Attr 3 form p []) (n_str c) (n_lstr c) (n_stro c) (Some 0) with
                                | Ok s => Ok (Some s) | Err _ => Ok None | UB => UB | Fuel => Fuel end
              else Ok name) ;;
    dir' <- (if negb (here path) && here idx then match formudata u (Attr 58 form p []) true with
                                | Ok v => Ok (Some v) | Err _ => Ok None | UB => UB | Fuel => Fuel end
             else Ok dir) ;;
    match val_len u form p with
    | Ok len => if u64 (e - p) <? len then bad else entry5 c u r (S m) path idx (p + len) e name' dir'
    | Err _ => bad
    | UB => UB
    | Fuel => Fuel
    end
  end.
(* :399-431 *)
Fixpoint dirs5 (n : nat) (c : lctx) (u : cu) (forms : list (Z * Z)) (p e : Z) : outcome (list (option bytes) * Z) :=
  match n with
  | O => Ok ([], p)
  | S k =>
    ' (name, _, q) <- entry5 c u forms 0 (last_of 1 forms) None p e None None ;;
    match name with
    | None => bad
    | Some s => d <- str_bytes c s ;; ' (l, z) <- dirs5 k c u forms q e ;; Ok (Some d :: l, z)
    end
  end.
(* :572-643: the file entry replaces the unnamed one at index 0, then they are added.  diridx
   equal to 2^64-1 is the same as none. *)
Fixpoint files5 (n : nat) (c : lctx) (u : cu) (forms : list (Z * Z)) (dirs : list (option bytes)) (p e : Z) : outcome (list fileinfo * Z) :=
  match n with
  | O => Ok ([], p)
  | S k =>
    ' (name, dir, q) <- entry5 c u forms 0 (last_of 1 forms) (last_of 2 forms) p e None None ;;
    match name, dir with
    | Some s, Some d =>
      if d =? two64 - 1 then bad
      else fname <- str_bytes c s ;;
           match znth dirs d with
           | None => Err DWARF_E_INVALID_DIR_IDX
           | Some dn => ' (l, z) <- files5 k c u forms dirs q e ;; Ok (File (join dn fname) 0 0 :: l, z)
           end
    | _, _ => bad
    end
  end.
Definition null_file : fileinfo := File [63; 63; 63] 0 0.
Definition is_some {A} (o : option A) : bool := match o with Some _ => true | None => false end.
(* :302-431, :439-643 for version 5: directories, files (in order) and the position after them *)
Definition tables5 (c : lctx) (osize p e : Z) : outcome (list (option bytes) * list fileinfo * Z) :=
  let u := fake_cu c p e osize in
  if u64 (e - p) <? 1 then bad else nforms <- byte_at (n_mem c) p ;;
  ' (forms, p) <- formats c (Z.to_nat nforms) (p + 1) e ;;
  if (0 <? nforms) && negb (is_some (last_of 1 forms)) then bad
  else if u64 (e - p) <? 1 then bad else ' (ndirs, p) <- get_uleb128 (n_mem c) p e ;;
  if (nforms =? 0) && negb (ndirs =? 0) then bad
  else if negb (nforms =? 0) && (u64 (e - p) / nforms <? ndirs) then bad
  else ' (dirs, p) <- dirs5 (Z.to_nat ndirs) c u forms p e ;;
  if u64 (e - p) <? 1 then bad else nforms <- byte_at (n_mem c) p ;;
  ' (forms, p) <- formats c (Z.to_nat nforms) (p + 1) e ;;
  if (0 <? nforms) && (negb (is_some (last_of 1 forms)) || negb (is_some (last_of 2 forms))) then bad
  else ' (nfiles, p) <- get_uleb128 (n_mem c) p e ;;
  if (nforms =? 0) && negb (nfiles =? 0) then bad
  else if negb (nforms =? 0) && (u64 (e - p) / nforms <? nfiles) then bad
  else ' (files, p) <- files5 (Z.to_nat nfiles) c u forms dirs p e ;;
  Ok (dirs, match files with [] => [null_file] | _ => files end, p).
(* the same for versions 2 to 4 *)
Definition tables_old (c : lctx) (p e : Z) : outcome (list (option bytes) * list fileinfo * Z) :=
  ' (ds, p) <- dirs_old (S (length (n_mem c))) c p e ;;
  let dirs := n_comp c :: ds in
  if e <=? p then bad
  else ' (files, p) <- files_old (S (length (n_mem c))) c dirs p e [null_file] ;;
  Ok (dirs, rev files, p).

(* :197-293, :646-651: the header from position p on: header, files, start and end of the
   program *)
Definition read_header (c : lctx) (p : Z) : outcome (lhdr * list fileinfo * Z * Z) :=
  let mem := n_mem c in
  let e := zlen mem in
  if e <? p + 4 then bad
  else l4 <- rd (n_fle c) mem p 4 ;;
  ' (len, p, osize) <- (if l4 =? 4294967295 then if e <? p + 12 then bad else l8 <- rd (n_fle c) mem (p + 4) 8 ;; Ok (l8, p + 12, 8) else Ok (l4, p + 4, 4)) ;;
  if e - p <? len then bad
  else let e := p + len in
  if e - p <? 2 then bad
  else ver <- rd (n_fle c) mem p 2 ;;
  let p := p + 2 in
  if (ver <? 2) || (5 <? ver) then Err DWARF_E_VERSION
  else
  p <- (if 5 <=? ver then
          if e - p <? 2 then bad
          else a <- byte_at mem p ;; s <- byte_at mem (p + 1) ;; if negb (a =? n_asize c) || negb (s =? 0) then bad else Ok (p + 2)
        else Ok p) ;;
  if e - p <? osize then bad
  else hl <- rd (n_fle c) mem p osize ;;
  let start := p + osize in
  min <- byte_at mem start ;;
  let p := start + 1 in
  ' (maxops, p) <- (if 4 <=? ver then
          if u64 (e - p) <? 1 then bad else m <- byte_at mem p ;; if m =? 0 then bad else Ok (m, p + 1)
        else Ok (1, p)) ;;
  if u64 (e - p) <? 4 then bad
  else stmt <- byte_at mem p ;; base <- byte_at mem (p + 1) ;; range <- byte_at mem (p + 2) ;; opbase <- byte_at mem (p + 3) ;;
  let p := p + 4 in
  let std := p - 1 in
  if e - p <? opbase - 1 then bad
  else let p := p + (opbase - 1) in
  ' (dirs, files, p) <- (if 5 <=? ver then tables5 c osize p e else tables_old c p e) ;;
  if negb (u64 (start + hl) =? p) then Err DWARF_E_INVALID_DWARF
  else Ok (LH min maxops stmt (s8 base) range opbase std dirs, files, p, e).

(* :985-1052: the arrays; the last line is marked as the end of a sequence *)
Definition mark_last (l : list line) : list line :=
  match rev l with
  | [] => []
  | x :: r => rev (Line (n_addr x) (n_file x) (n_line x) (n_col x) (n_stmt x) (n_bb x) true (n_pe x) (n_eb x) (n_op x) (n_isa x) (n_disc x) :: r)
  end.
(* :57-78 compare_lines on lines with their numbers *)
Definition compare_lines (a b : nat * line) : Z :=
  let '(i, x) := a in let '(j, y) := b in
  if negb (n_addr x =? n_addr y) then if n_addr x <? n_addr y then -1 else 1
  else if negb (Bool.eqb (n_end x) (n_end y)) then (if n_end y then 1 else 0) - (if n_end x then 1 else 0)
  else if (i <? j)%nat then -1 else if (j <? i)%nat then 1 else 0.
Definition read_srclines (qs : list (nat * line) -> list (nat * line)) (c : lctx) (p : Z) : outcome (list line * list fileinfo * list (option bytes)) :=
  ' (h, files, p, e) <- read_header c p ;;
  s <- run (S (length (n_mem c))) c h (reset_regs h [] (rev files)) p e ;;
  let lines := rev (s_lines s) in
  Ok (mark_last (map snd (qs (combine (seq 0 (length lines)) lines))), rev (s_files s), g_dirs h).

(* dwarf_filesrc.c:38-53: name, time and length *)
Definition filesrc (files : list fileinfo) (i : Z) : option fileinfo := znth files i.

(* dwarf_getsrc_die.c:37-75 dwarf_getsrc_die, the index of the line found *)
Fixpoint src_search (fuel : nat) (lines : list line) (a l u : Z) : outcome Z :=
  if l <? u then
    match fuel with
    | O => Fuel
    | S k => let i := u - (u - l) / 2 in
             match znth lines i with
             | None => UB
             | Some x => if a <? n_addr x then src_search k lines a l (i - 1) else src_search k lines a i u
             end
    end
  else Ok l.
Definition getsrc_die (lines : list line) (a : Z) : outcome Z :=
  if 0 <? zlen lines then
    l <- src_search (length lines) lines a 0 (zlen lines - 1) ;;
    match znth lines (zlen lines - 1), znth lines l with
    | Some z, Some x => if negb (n_end z) then UB
                        else if negb (n_end x) && (n_addr x <=? a) then Ok l else Err DWARF_E_ADDR_OUTOFRANGE
    | _, _ => UB
    end
  else Err DWARF_E_ADDR_OUTOFRANGE.

(* dwarf_getsrclines.c:1095-1139 __libdw_getsrclines: tables kept by their offset alone *)
Definition tables := list (Z * (list line * list fileinfo * list (option bytes))).
Definition getsrclines (qs : list (nat * line) -> list (nat * line)) (c : lctx) (t : tables) (off : Z) : outcome ((list line * list fileinfo * list (option bytes)) * tables) :=
  match find (fun x => fst x =? off) t with
  | Some (_, r) => Ok (r, t)
  | None => _ <- offset_in_section (Some (n_mem c)) off 1 ;; r <- read_srclines qs c off ;; Ok (r, (off, r) :: t)
  end.
