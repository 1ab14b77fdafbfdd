(* Model of the program strings: src/strings.c.
   Output is the list of what is printed, one entry a line: the offset and the text.  The name of the file and the radix are left out.  isprint of the locale is
   a parameter; the text ends in unprinted at a NUL byte as it is kept as a C string, but isprint holds of no NUL byte. *)
From Verif Require Import Base.

Definition line := (Z * bytes)%type.
(* strings.c:405 the test of one byte; isp is isprint, b7 is char_7bit *)
Definition good (isp : Z -> bool) (b7 : bool) (c : Z) : bool := (isp c || (c =? 9)) && (negb b7 || (c <=? 127)).

(* strings.c:390-449 process_chunk for bytes_per_char 1.  The loop: l is what is left (so len is its length), rev is start..buf backwards, cur is curlen.
   The result is the output, what is between start and buf at the end, curlen and *unprinted. *)
Fixpoint chunk_loop (gd : Z -> bool) (min to : Z) (l : bytes) (rev : bytes) (cur : Z) (un : option bytes) (out : list line) : list line * bytes * Z * option bytes :=
  match l with
  | [] => (out, rev, cur, un)
  | c :: r =>
      if gd c then chunk_loop gd min to r (c :: rev) (cur + 1) un out
      else
        let '(out', un') :=
          if min <=? cur then
            (out ++ [(to - zlen l - zlen rev, (match un with Some u => u | None => [] end) ++ List.rev rev)], None)
          else (out, un) in
        if zlen l <=? min then (out', [], 0, un')
        else chunk_loop gd min to r [] 0 un' out'
  end.
(* strings.c:447-448: xstrndup of curlen bytes at start.  If curlen is more than the bytes of the chunk from start on, it goes on in the memory after them: UB.  *)
Inductive cres := Cok (out : list line) (un : option bytes) | Cub.
Definition process_chunk (gd : Z -> bool) (min to : Z) (l : bytes) (un : option bytes) : cres :=
  let '(out, rev, cur, un') := chunk_loop gd min to l [] (match un with Some u => zlen u | None => 0 end) un [] in
  if cur =? 0 then Cok out un'
  else if zlen rev <? cur then Cub
  else Cok out (Some (zsub (List.rev rev) 0 cur)).

(* strings.c:321-341 the character at buf *)
Definition wide (bpc : Z) (big : bool) (l : bytes) : Z :=
  let d := zsub l 0 bpc in if big then be_value d else le_value d.
(* strings.c:313-388 process_chunk_mb: as above, with characters of bpc bytes *)
Fixpoint mb_loop (gd : Z -> bool) (bpc : Z) (big : bool) (min to : Z) (l : bytes) (rev : bytes) (cur : Z) (un : option bytes) (out : list line)
  : list line * bytes * Z * option bytes :=
  match l with
  | [] => (out, rev, cur, un)
  | c :: r =>
      if zlen l <? bpc then (out, rev, cur, un)
      else if (wide bpc big l <=? 255) && gd (wide bpc big l) then mb_loop gd bpc big min to r (c :: rev) (cur + 1) un out
      else
        let '(out', un') :=
          if min <=? cur then
            (out ++ [(to - zlen l - zlen rev, (match un with Some u => u | None => [] end) ++ List.rev rev)], None)
          else (out, un) in
        if zlen l <=? min then (out', [], 0, un')
        else mb_loop gd bpc big min to r [] 0 un' out'
  end.
Definition process_chunk_mb (gd : Z -> bool) (bpc : Z) (big : bool) (min to : Z) (l : bytes) (un : option bytes) : list line :=
  let '(out, _, _, _) := mb_loop gd bpc big min to l [] (match un with Some u => zlen u | None => 0 end) un [] in out.

(* strings.c:501-564 read_block_no_mmap for bytes_per_char 1: reads are what the calls of read return one after the other, an empty one being the end of file.
   tr are the ntrailer bytes at the start of buf.  A last error of read only sets the exit status and is left out. *)
Fixpoint no_mmap (gd : Z -> bool) (min from : Z) (reads : list bytes) (tr : bytes) (un : option bytes) (out : list line) : outcome (list line) :=
  match reads with
  | [] => Ok out
  | [] :: _ => match un with Some _ => if zlen tr =? 0 then Ok out else UB | None => Ok out end
  | n :: rs =>
      let b := tr ++ n in
      let nb := zlen b in
      if min <=? nb then
        match process_chunk gd min (from + nb) b un with
        | Cub => UB
        | Cok o un' =>
            let keep := match un' with Some _ => 0 | None => min end in
            no_mmap gd min (from + nb) rs (zsub b (nb - keep) keep) un' (out ++ o)
        end
      else no_mmap gd min from rs b un out
  end.

(* strings.c:451-497, 567-617 read_block where mmap gives the whole of the file from off on: from and to lie within the mapping.  A mapping, once made, is kept for
   further sections of the file: map is its offset and size. *)
Definition PS : Z := 4096.
Definition MMAP_MAX : Z := 0x4000000000.
Inductive bres := Bout (out : list line) (map : Z * Z) | Bassert | Bfail | Bmore.
Definition read_block (gd : Z -> bool) (min : Z) (file : bytes) (map : option (Z * Z)) (from to : Z) : bres :=
  let '(off, size) := match map with Some m => m | None => (from - from mod PS, Z.min MMAP_MAX (zlen file)) end in
  if negb (min <? zlen file) then Bassert
  else
    (* 592-604: a mapping at an offset that is not a multiple of the page size is refused *)
    match (if (to <? off) || (off + size <? from) then (if from mod PS =? 0 then Some from else None) else Some off) with
    | None => Bfail
    | Some off' =>
        if off' + size <? to then Bmore
        else if (off' <=? from) && (from <? off' + size) then
          match process_chunk gd min to (zsub file from (to - from)) None with Cok o _ => Bout o (off', size) | Cub => Bassert end
        else Bout [] (off', size)
    end.
(* strings.c:683-737 read_elf: the sections in order, each with its type being NOBITS, its flag ALLOC, its offset and its size *)
Record strsec := Ss { ss_nobits : bool; ss_alloc : bool; ss_off : Z; ss_size : Z }.
Inductive eres := Eout (out : list line) (status : Z) | Estop (r : bres).
Fixpoint read_elf (gd : Z -> bool) (min : Z) (file : bytes) (map : option (Z * Z)) (secs : list strsec) (out : list line) (status : Z) : eres :=
  match secs with
  | [] => Eout out status
  | s :: r =>
      if negb (ss_nobits s) && ss_alloc s then
        if (zlen file <? ss_off s) || (zlen file - ss_off s <? ss_size s) then read_elf gd min file map r out 1
        else match read_block gd min file map (ss_off s) (ss_off s + ss_size s) with
             | Bout o m => read_elf gd min file (Some m) r (out ++ o) status
             | x => Estop x
             end
      else read_elf gd min file map r out status
  end.
