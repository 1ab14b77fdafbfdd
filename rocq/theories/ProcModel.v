(* Model of reporting the modules of a process: libdwfl/linux-proc-maps.c. *)
From Verif Require Import Base CrcModel.

(* ---- the directives of sscanf that proc_maps_report uses (linux-proc-maps.c:217-219).  Simplified: no sign and no
   0x before a number; a number that does not fit gives the largest value, as strtoull does ---- *)
Definition is_ws (c : Z) : bool := (c =? 32) || ((9 <=? c) && (c <=? 13)).
Fixpoint skip_ws (s : bytes) : bytes := match s with c :: r => if is_ws c then skip_ws r else s | [] => [] end.
Definition digit (c : Z) : option Z :=
  if (48 <=? c) && (c <=? 57) then Some (c - 48)
  else if (97 <=? c) && (c <=? 102) then Some (c - 87)
  else if (65 <=? c) && (c <=? 70) then Some (c - 55) else None.
Fixpoint number (base acc : Z) (s : bytes) : Z * bytes :=
  match s with
  | c :: r => match digit c with Some d => if d <? base then number base (acc * base + d) r else (acc, s) | None => (acc, s) end
  | [] => (acc, [])
  end.
Definition scan_num (base : Z) (s : bytes) : option (Z * bytes) :=
  match skip_ws s with
  | c :: r => match digit c with
              | Some d => if d <? base then let p := number base 0 (c :: r) in Some (Z.min (fst p) (two64 - 1), snd p) else None
              | None => None end
  | [] => None
  end.
(* %i: a leading 0 means octal *)
Definition scan_int (s : bytes) : option (Z * bytes) :=
  match skip_ws s with c :: r => scan_num (if c =? 48 then 8 else 10) (c :: r) | [] => None end.
Definition lit (c : Z) (s : bytes) : option bytes := match s with x :: r => if x =? c then Some r else None | [] => None end.
Fixpoint skip_word (s : bytes) : bytes := match s with c :: r => if is_ws c then s else skip_word r | [] => [] end.
Definition scan_word (s : bytes) : option bytes := match skip_ws s with [] => None | s => Some (skip_word s) end.

Record mline := Mline { m_start : Z; m_end : Z; m_off : Z; m_maj : Z; m_min : Z; m_ino : Z; m_name : bytes }.

Definition obn {A B : Type} (o : option A) (f : A -> option B) : option B := match o with Some x => f x | None => None end.
(* linux-proc-maps.c:236: strspn of blanks and tabs *)
Fixpoint skip_blank (s : bytes) : bytes := match s with c :: r => if (c =? 32) || (c =? 9) then skip_blank r else s | [] => [] end.

(* linux-proc-maps.c:213-219, 236: one line, without its newline and its null byte *)
Definition parse_line (s : bytes) : option mline :=
  obn (scan_num 16 s) (fun a =>
  obn (lit 45 (snd a)) (fun s1 =>
  obn (scan_num 16 s1) (fun b =>
  obn (scan_word (skip_ws (snd b))) (fun s2 =>
  obn (scan_num 16 (skip_ws s2)) (fun o =>
  obn (scan_num 16 (skip_ws (snd o))) (fun mj =>
  obn (lit 58 (snd mj)) (fun s3 =>
  obn (scan_num 16 s3) (fun mn =>
  obn (scan_int (skip_ws (snd mn))) (fun i =>
  Some (Mline (fst a) (fst b) (fst o) (u32 (fst mj)) (u32 (fst mn)) (fst i) (skip_blank (skip_ws (snd i))))))))))))).

(* the newline at the end of what getline gives (linux-proc-maps.c:210-211) *)
Definition chop (s : bytes) : bytes := match rev s with 10 :: r => rev r | _ => s end.

(* ---- proc_maps_report ---- *)
Definition key : Type := Z * Z * Z.
Definition key_of (l : mline) : key := (m_ino l, m_maj l, m_min l).
Definition key_eqb (a b : key) : bool := (fst (fst a) =? fst (fst b)) && (snd (fst a) =? snd (fst b)) && (snd a =? snd b).
Definition modl : Type := bytes * Z * Z.
(* the local variables, and the modules reported *)
Record pst := Pst { p_last : option bytes; p_key : key; p_low : Z; p_high : Z; p_out : list modl }.

(* linux-proc-maps.c:184-197 do_report; [ok] says whether dwfl_report_module works.  The boolean is its result *)
Definition do_report (ok : modl -> bool) (s : pst) : bool * pst :=
  match p_last s with
  | None => (false, s)
  | Some n =>
      let m := (n, p_low s, p_high s) in
      if ok m then (false, Pst None (p_key s) (p_low s) (p_high s) (p_out s ++ [m]))
      else (true, Pst None (p_key s) (p_low s) (p_high s) (p_out s))
  end.

(* linux-proc-maps.c:238: a line of a file *)
Definition is_file (l : mline) : bool :=
  match m_name l with c :: _ => (c =? 47) && negb ((m_ino l =? 0) && (m_maj l =? 0) && (m_min l =? 0)) | [] => false end.

(* linux-proc-maps.c:226-242: the special mapping; None is bad_report *)
Definition special (ok : modl -> bool) (vdso : Z) (vname : bytes) (l : mline) (s : pst) : bool * pst :=
  if (m_start l =? vdso) && negb (m_start l =? 0) then
    let (b, s) := do_report ok s in
    if b then (true, s) else do_report ok (Pst (Some vname) (p_key s) (m_start l) (m_end l) (p_out s))
  else (false, s).

(* linux-proc-maps.c:243-272 *)
Definition mapping (ok : modl -> bool) (l : mline) (s : pst) : bool * pst :=
  if negb (is_file l) then (false, s)
  else
    let fresh := let (b, s) := do_report ok s in
                 if b then (true, s) else (false, Pst (Some (m_name l)) (key_of l) (m_start l) (m_end l) (p_out s)) in
    match p_last s with
    | Some n =>
        if key_eqb (key_of l) (p_key s)
        then if beq n (m_name l) then (false, Pst (Some n) (p_key s) (p_low s) (m_end l) (p_out s)) else (true, s)
        else fresh
    | None => fresh
    end.

Definition ENOEXEC : Z := 8.
(* linux-proc-maps.c:201-283: [stop] is what the end of the input means: 0 at the end of the file, an error number
   after a read error *)
Fixpoint maps_loop (ok : modl -> bool) (vdso : Z) (vname : bytes) (stop : Z) (lines : list bytes) (s : pst) : Z * list modl :=
  match lines with
  | [] => let (b, s) := do_report ok s in (if negb (stop =? 0) then stop else if b then -1 else 0, p_out s)
  | t :: r =>
      match parse_line (chop t) with
      | None => (ENOEXEC, p_out s)
      | Some l =>
          let (b, s) := special ok vdso vname l s in
          if b then (-1, p_out s)
          else let (b, s) := mapping ok l s in
               if b then (-1, p_out s) else maps_loop ok vdso vname stop r s
      end
  end.
Definition proc_maps_report (ok : modl -> bool) (vdso : Z) (vname : bytes) (stop : Z) (lines : list bytes) : Z * list modl :=
  maps_loop ok vdso vname stop lines (Pst None (two64 - 1, two32 - 1, two32 - 1) 0 0 []).

(* ---- grovel_auxv ---- *)
(* linux-proc-maps.c:130-155: the loop over one buffer, for entries of two words of [w] bytes in host byte order *)
Fixpoint entries (fuel : nat) (dec : bytes -> Z) (w : Z) (d : bytes) (acc : Z * Z) : Z * Z :=
  match fuel with
  | O => acc
  | S f =>
      if zlen d <? 2 * w then acc
      else
        let t := dec (zsub d 0 w) in
        let v := dec (zsub d w w) in
        entries f dec w (skipn (Z.to_nat (2 * w)) d) (if t =? 33 then (v, snd acc) else if t =? 6 then (fst acc, v) else acc)
  end.

(* linux-proc-maps.c:120-158: buffers of 1024 bytes until a short one; [rd] is pread_retry at an offset (None: error) *)
Fixpoint auxv_loop (fuel : nat) (dec : bytes -> Z) (rd : Z -> option bytes) (off : Z) (a64 a32 : Z * Z) : outcome (option ((Z * Z) * (Z * Z))) :=
  match fuel with
  | O => Fuel
  | S f =>
      match rd off with
      | None => Ok None
      | Some d =>
          let a32 := entries (length d) dec 4 d a32 in
          let a64 := entries (length d) dec 8 d a64 in
          if zlen d =? 1024 then auxv_loop f dec rd (off + zlen d) a64 a32 else Ok (Some (a64, a32))
      end
  end.

(* linux-proc-maps.c:95-181: [pid_class] is the result of get_pid_class; the result: the return value, the address
   of the special mapping and the segment alignment afterwards *)
Definition grovel_auxv (fuel : nat) (dec : bytes -> Z) (rd : Z -> option bytes) (errno pid_class align : Z) : outcome (Z * Z * Z) :=
  r <- auxv_loop fuel dec rd 0 (0, align) (0, align) ;;
  match r with
  | None => Ok (errno, 0, align)
  | Some (a64, a32) =>
      let valid64 := negb (fst a64 =? 0) || negb (snd a64 =? align) in
      let valid32 := negb (fst a32 =? 0) || negb (snd a32 =? align) in
      let cl := if valid64 && valid32 then pid_class else 0 in
      if (cl =? 2) || (valid64 && negb valid32) then Ok (0, fst a64, snd a64)
      else if (cl =? 1) || (negb valid64 && valid32) then Ok (0, fst a32, snd a32)
      else Ok (ENOEXEC, 0, align)
  end.
