(* The global names of .debug_pubnames: libdw/dwarf_getpubnames.c.

   Simplifications: memory is always available; no relocations.  The table of the sets,
   which the code keeps from the first call on, is computed anew by each call.  Comparing
   a pointer that lies beyond the end of the section is not undefined here.  A failing
   assertion ends the process: UB.  The callback is a function on the state a of the
   caller that gives the new state and the number returned. *)
From Verif Require Import Base DwModel ArModel.

Definition DWARF_E_INVALID_VERSION := 13.                   (* libdwP.h:110 *)

(* libdwP.h:178-184 struct pubnames_s *)
Record pset := PS { ps_start : Z; ps_alen : Z; ps_cu : Z; ps_hdr : Z }.
(* libdw.h:137-143 Dwarf_Global *)
Record glob := GL { gl_cu : Z; gl_die : Z; gl_name : bytes }.

(* dwarf_getpubnames.c:54-125; acc: newest first *)
Fixpoint offs_loop (k : nat) (fle : bool) (d : bytes) (info : option bytes) (p : Z) (acc : list pset) : outcome (list pset) :=
  match k with
  | O => Fuel
  | S k =>
    if negb (p + 14 <? zlen d) then Ok acc
    else
      len0 <- rd fle d p 4 ;;
      let wide := len0 =? LENGTH_64_BIT in
      len <- (if wide then rd fle d (p + 4) 8 else Ok len0) ;;
      if negb wide && (LENGTH_MIN_ESCAPE <=? len0) then Err DWARF_E_INVALID_DWARF
      else
      let lb := if wide then 8 else 4 in
      let q := if wide then p + 12 else p + 4 in
      let start := q + 2 + 2 * lb in
      if (zlen d <=? start) || (zlen d - start <? u64 (len - (2 + 2 * lb))) then Ok acc
      else
      version <- rd fle d q 2 ;;
      if negb (version =? 2) then Err DWARF_E_INVALID_VERSION
      else
      cu <- read_offset fle d (q + 2) lb info 3 ;;
      h <- rd fle (match info with Some i => i | None => [] end) cu 4 ;;
      offs_loop k fle d info (q + len) (PS start lb cu (if h =? LENGTH_64_BIT then 23 else 11) :: acc)
  end.
(* dwarf_getpubnames.c:42-140 *)
Definition get_offsets (fle : bool) (d : bytes) (info : option bytes) : outcome (list pset) :=
  acc <- offs_loop (S (length d)) fle d info 0 [] ;;
  match acc with [] => Err DWARF_E_NO_ENTRY | _ => Ok (rev acc) end.

(* what a call returns: 0, the offset of the next entry, or -1 with an error *)
Inductive ret := Done | Stopped (off : Z) | Failed (e : Z).

Section calls.
Context {A : Type} (cb : A -> glob -> A * Z) (fle : bool) (d : bytes).
(* dwarf_getpubnames.c:188-240; sets: the current set and those after it *)
Fixpoint pub_loop (k : nat) (sets : list pset) (p : Z) (a : A) : outcome (A * ret) :=
  match k with
  | O => Fuel
  | S k =>
    match sets with
    | [] => UB
    | s :: rest =>
      if zlen d <? p + ps_alen s then Ok (a, Failed DWARF_E_INVALID_DWARF)
      else
        o <- rd fle d p (ps_alen s) ;;
        if o =? 0 then
          match rest with
          | [] => Ok (a, Done)
          | t :: _ => pub_loop k rest (ps_start t) a
          end
        else
          let q := p + ps_alen s in
          match index_of 0 (skipn (Z.to_nat q) d) with
          | None => Ok (a, Failed DWARF_E_INVALID_DWARF)
          | Some i =>
            let '(a, code) := cb a (GL (u64 (ps_cu s + ps_hdr s)) (u64 (o + ps_cu s)) (zsub d q (Z.of_nat i))) in
            let q := q + Z.of_nat i + 1 in
            if code =? 0 then pub_loop k sets q a else Ok (a, Stopped q)
          end
    end
  end.

(* dwarf_getpubnames.c:176-184, the set in which to go on *)
Fixpoint find_set (sets : list pset) (offset : Z) : outcome (list pset) :=
  match sets with
  | s :: (t :: _) as r =>
    if ps_start s <=? offset then (if offset <? ps_start t then Ok sets else UB) else find_set r offset
  | _ => UB
  end.
End calls.

(* dwarf_getpubnames.c:143-244; sec: .debug_pubnames *)
Definition getpubnames {A} (cb : A -> glob -> A * Z) (fle : bool) (sec info : option bytes) (offset : Z) (a : A) : outcome (A * ret) :=
  if offset <? 0 then Ok (a, Failed DWARF_E_INVALID_OFFSET)
  else
    match sec with
    | None => Ok (a, Done)
    | Some d =>
      if zlen d <=? offset then Ok (a, Done)
      else
        match get_offsets fle d info with
        | Err e => Ok (a, Failed e)
        | UB => UB
        | Fuel => Fuel
        | Ok sets =>
          let k := ((1 + length sets) * (2 + length d))%nat in
          if offset =? 0 then
            match sets with
            | [] => UB
            | s :: _ => pub_loop cb fle d k sets (ps_start s) a
            end
          else
            r <- find_set sets offset ;;
            pub_loop cb fle d k r offset a
        end
    end.
