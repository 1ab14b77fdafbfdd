(* The addresses that a file reported to libdwfl gets: libdwfl/dwfl_report_elf.c
   (__libdwfl_elf_address_range), libdwfl/offline.c (process_elf).

   Simplifications: headers can be read and updated; the module is accepted under its name
   (ReportModel has the list of modules). *)
From Verif Require Import Base.

(* what is used of a section header: SHF_ALLOC, sh_addr, sh_size, sh_addralign *)
Record rsh := Rsh { r_alloc : bool; r_addr : Z; r_size : Z; r_align : Z }.
Definition set_addr (h : rsh) (a : Z) : rsh := Rsh (r_alloc h) a (r_size h) (r_align h).
(* dwfl_report_elf.c:43 *)
Definition REL_MIN_ALIGN : Z := 256.
(* (x + a - 1) & -a *)
Definition round_up (x a : Z) : Z := Z.land (u64 (x + a - 1)) (u64 (- a)).
(* sh_addralign ?: 1 *)
Definition align_of (h : rsh) : Z := if r_align h =? 0 then 1 else r_align h.

(* dwfl_report_elf.c:106-129: lay out again *)
Fixpoint relay (e : Z) (hs : list rsh) : list rsh * Z :=
  match hs with
  | [] => ([], e)
  | h :: hs =>
    if r_alloc h then
      let a := round_up e (align_of h) in
      let '(l, e) := relay (u64 (a + r_size h)) hs in (set_addr h a :: l, e)
    else let '(l, e) := relay e hs in (h :: l, e)
  end.

(* the local variables *)
Record lay := Lay { l_start : Z; l_end : Z; l_base : Z; l_bias : Z; l_first : bool }.
(* dwfl_report_elf.c:75-155: one section; done: the sections before it, in order *)
Definition lay_step (done : list rsh) (h : rsh) (v : lay) : list rsh * lay :=
  if r_alloc h then
    let align := align_of h in
    let next := round_up (l_end v) align in
    if (r_addr h =? 0) || ((l_bias v =? 0) && (l_start v <? l_end v) && negb (l_end v =? next)) then
      if l_end v =? l_base v then
        (done ++ [if next =? 0 then h else set_addr h next], Lay next (u64 (next + r_size h)) next (l_bias v) false)
      else if negb (Z.land (l_base v) (align - 1) =? 0) then
        let nb := round_up (l_base v) align in
        let '(all, e) := relay nb (done ++ [h]) in
        (all, Lay nb e nb (l_bias v) (l_first v))
      else
        (done ++ [if next =? 0 then h else set_addr h next], Lay (l_start v) (u64 (next + r_size h)) (l_base v) (l_bias v) false)
    else
      let e := if l_first v || (l_end v <? u64 (r_addr h + r_size h)) then u64 (r_addr h + r_size h) else l_end v in
      let bias := if l_first v || (r_addr h <? l_bias v) then r_addr h else l_bias v in
      let base := if negb (Z.land (u64 (r_addr h - bias + l_base v)) (align - 1) =? 0)
                  then u64 (round_up (l_base v) align + Z.land bias (align - 1)) else l_base v in
      (done ++ [h], Lay (l_start v) e base bias false)
  else (done ++ [h], v).
Fixpoint lay_loop (done todo : list rsh) (v : lay) : list rsh * lay :=
  match todo with
  | [] => (done, v)
  | h :: todo => let '(done, v) := lay_step done h v in lay_loop done todo v
  end.
(* dwfl_report_elf.c:66-167, ET_REL: the sections, start, end, bias.  hs: all but section 0 *)
Definition rel_range (base : Z) (hs : list rsh) : list rsh * (Z * Z * Z) :=
  let b := round_up base REL_MIN_ALIGN in
  let '(hs, v) := lay_loop [] hs (Lay b b b 0 true) in
  if negb (l_bias v =? 0) then (hs, (l_base v, u64 (l_end v - l_bias v + l_base v), u64 (l_base v - l_bias v)))
  else (hs, (l_start v, l_end v, l_bias v)).

(* a program header: p_type == PT_LOAD, p_vaddr, p_memsz, p_align *)
Record ph := Ph { p_load : bool; p_vaddr : Z; p_memsz : Z; p_align : Z }.
(* dwfl_report_elf.c:181-193: the first PT_LOAD: vaddr and address_sync *)
Fixpoint first_load (ps : list ph) : Z * Z :=
  match ps with
  | [] => (0, 0)
  | p :: ps => if p_load p then (Z.land (p_vaddr p) (u64 (- p_align p)), u64 (p_vaddr p + p_memsz p)) else first_load ps
  end.
(* dwfl_report_elf.c:205-217: the last PT_LOAD that does not end at 0; rs: last first *)
Fixpoint last_end (bias : Z) (rs : list ph) : Z :=
  match rs with
  | [] => 0
  | p :: rs => if p_load p && (0 <? u64 (p_vaddr p + p_memsz p)) then u64 (bias + u64 (p_vaddr p + p_memsz p)) else last_end bias rs
  end.
(* dwfl_report_elf.c:169-239, other types; exec: ET_EXEC or ET_CORE; start, end, bias; NULL is None *)
Definition seg_range (exec : bool) (base : Z) (add_p_vaddr sanity : bool) (ps : list ph) : option (Z * Z * Z) :=
  let base := if exec then 0 else base in
  let add := exec || add_p_vaddr in
  let vaddr := fst (first_load ps) in
  let start := if add then u64 (base + vaddr) else base in
  let bias := if add then base else u64 (base - vaddr) in
  let e := last_end bias (rev ps) in
  if (e =? 0) && sanity then None else Some (start, e, bias).

(* libdwflP.h:143 *)
Definition OFFLINE_REDZONE : Z := 65536.
(* offline.c:141-148: offline_next_address behind a module *)
Definition next_address (next low high : Z) : Z :=
  if ((low <=? next) || (u64 (low - next) <? OFFLINE_REDZONE)) && (next <? u64 (high + OFFLINE_REDZONE)) then u64 (high + OFFLINE_REDZONE) else next.
(* dwfl_report_offline for relocatable files, one after the other: the ranges *)
Fixpoint offline (next : Z) (files : list (list rsh)) : list (Z * Z) :=
  match files with
  | [] => []
  | hs :: files => let '(_, (s, e, _)) := rel_range next hs in (s, e) :: offline (next_address next s e) files
  end.
