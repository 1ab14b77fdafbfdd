(* Model of the section list of an ELF descriptor: elf_newscn.c, elf_getscn.c,
   elf_nextscn.c, elf_ndxscn.c, elf_getshdrnum.c.  Locks are not modelled;
   elf->kind is ELF_K_ELF. *)
From Verif Require Import Base.

(* libelfP.h struct Elf_Scn, the parts that matter here: the index, whether the
   header and the elf back pointer are set, and the list block it points to. *)
Record scn := { sc_index : Z; sc_ready : bool; sc_list : option nat }.
Definition scn0 : scn := {| sc_index := 0; sc_ready := false; sc_list := None |}.

(* libelfP.h:256-262 Elf_ScnList: cnt, max and the array of max (zeroed) entries. *)
Record scnlist := { sl_cnt : Z; sl_max : Z; sl_data : list scn }.

(* The list hanging off state.elf.scns; scns_last is the last one. *)
Record scns := { ss_blocks : list scnlist; ss_incr : Z }.

(* Elf_Scn * : block number and position in its array. *)
Definition sptr := (nat * Z)%type.

Definition ELF_E_NOMEM := 3.
Definition ELF_E_INVALID_INDEX := 26.

(* elf_begin.c:304-323 and 335-425 (file_read_elf: scncnt sections read,
   scnmax allocated) and elf_begin.c:1050-1073 (write_file: cnt 0, max 10). *)
Definition scns_init (cnt max : nat) : scns :=
  {| ss_blocks :=
       [{| sl_cnt := Z.of_nat cnt; sl_max := Z.of_nat max;
           sl_data := map (fun i => if (i <? cnt)%nat
                                    then {| sc_index := Z.of_nat i; sc_ready := true; sc_list := Some O |}
                                    else scn0) (seq 0 max) |}];
     ss_incr := 10 |}.

Definition scn_at (st : scns) (p : sptr) : option scn :=
  match nth_error (ss_blocks st) (fst p) with
  | Some b => znth (sl_data b) (snd p)
  | None => None
  end.

Fixpoint list_set {A : Type} (l : list A) (i : nat) (x : A) : list A :=
  match l, i with
  | [], _ => []
  | _ :: l, O => x :: l
  | y :: l, S i => y :: list_set l i x
  end.

(* Overwriting block k. *)
Definition set_block (st : scns) (k : nat) (b : scnlist) : scns :=
  {| ss_blocks := list_set (ss_blocks st) k b; ss_incr := ss_incr st |}.

(* Writing a section; outside the arrays it is UB. *)
Definition set_scn (st : scns) (p : sptr) (x : scn) : outcome scns :=
  match nth_error (ss_blocks st) (fst p) with
  | None => UB
  | Some b =>
      match znth (sl_data b) (snd p) with
      | None => UB
      | Some _ => Ok (set_block st (fst p)
                        {| sl_cnt := sl_cnt b; sl_max := sl_max b; sl_data := zset (sl_data b) (snd p) x |})
      end
  end.

Definition last_no (st : scns) : nat := (length (ss_blocks st) - 1)%nat.

(* elf_newscn.c:65-117: pick or allocate the slot.  Result: None if calloc
   fails (scnincr is doubled nevertheless), else the pointer and "first". *)
Definition newscn_slot (blk_ok : bool) (st : scns) : outcome (scns * option (sptr * bool)) :=
  let k := last_no st in
  match nth_error (ss_blocks st) k with
  | None => UB
  | Some b =>
      if sl_cnt b <? sl_max b then
        let pos := sl_cnt b in
        let cnt := u32 (sl_cnt b + 1) in
        let st := set_block st k {| sl_cnt := cnt; sl_max := sl_max b; sl_data := sl_data b |} in
        if (cnt =? 1) && Nat.eqb k 0 then Ok (st, Some ((k, pos), true))
        else if negb (1 <? cnt) then UB (* assert *)
        else
          match znth (sl_data b) (pos - 1), znth (sl_data b) pos with
          | Some prev, Some cur =>
              st <- set_scn st (k, pos) {| sc_index := u64 (sc_index prev + 1);
                                           sc_ready := sc_ready cur; sc_list := sc_list cur |} ;;
              Ok (st, Some ((k, pos), false))
          | _, _ => UB
          end
      else if negb (0 <? ss_incr st) then UB (* assert *)
      else
        let incr := u32 (ss_incr st * 2) in
        if negb blk_ok then Ok ({| ss_blocks := ss_blocks st; ss_incr := incr |}, None)
        else
          (* data[max - 1]; max is unsigned int *)
          match znth (sl_data b) (u32 (sl_max b - 1)) with
          | None => UB
          | Some l =>
              if incr =? 0 then UB (* newp->data[0] is outside the block *)
              else
                let first := {| sc_index := u64 (1 + sc_index l); sc_ready := false; sc_list := None |} in
                Ok ({| ss_blocks := ss_blocks st ++
                         [{| sl_cnt := 1; sl_max := incr;
                             sl_data := first :: repeat scn0 (Z.to_nat (incr - 1)) |}];
                       ss_incr := incr |},
                    Some ((S k, 0), false))
          end
  end.

(* elf_newscn.c:119-143: the header; None if calloc fails. *)
Definition newscn_header (shdr_ok : bool) (st : scns) (p : sptr) : outcome (option scns) :=
  if negb shdr_ok then Ok None
  else match scn_at st p with
       | None => UB
       | Some s => st <- set_scn st p {| sc_index := sc_index s; sc_ready := true;
                                         sc_list := Some (last_no st) |} ;; Ok (Some st)
       end.

(* elf_newscn.c:43-161: the pointer returned and the error set.  allocation
   results: blk_ok for the first block allocation (there is at most one),
   shdr0_ok for the header of the zeroth section, shdr_ok for the other. *)
Definition elf_newscn (blk_ok shdr0_ok shdr_ok : bool) (st : scns)
  : outcome (scns * option sptr * option Z) :=
  let finish st r :=
    match r with
    | None => Ok (st, None, Some ELF_E_NOMEM)
    | Some (p, _) =>
        h <- newscn_header shdr_ok st p ;;
        match h with
        | None => Ok (st, Some p, Some ELF_E_NOMEM) (* goto out: result is not cleared *)
        | Some st => Ok (st, Some p, None)
        end
    end in
  ' (st, r) <- newscn_slot blk_ok st ;;
  match r with
  | Some (p, true) =>
      h <- newscn_header shdr0_ok st p ;;
      match h with
      | None => Ok (st, Some p, Some ELF_E_NOMEM)
      | Some st => ' (st, r) <- newscn_slot blk_ok st ;; finish st r  (* goto again *)
      end
  | r => finish st r
  end.

(* elf_getscn.c:94-117, the loop *)
Fixpoint getscn_loop (bl : list scnlist) (k : nat) (idx : Z) : option sptr :=
  match bl with
  | [] => None
  | b :: r =>
      if idx <? sl_max b then (if idx <? sl_cnt b then Some (k, idx) else None)
      else getscn_loop r (S k) (idx - sl_max b)
  end.

(* elf_getscn.c:41-123: may create section zero; scn0->list = scns_last. *)
Definition elf_getscn (shdr_ok : bool) (st : scns) (idx : Z) : outcome (scns * option sptr) :=
  match ss_blocks st with
  | [] => UB
  | b :: _ =>
      if (idx =? 0) && (sl_cnt b =? 0) && (0 <? sl_max b) then
        if negb shdr_ok then Ok (st, None)
        else
          match znth (sl_data b) 0 with
          | None => UB
          | Some s =>
              let st := set_block st 0 {| sl_cnt := 1; sl_max := sl_max b;
                          sl_data := zset (sl_data b) 0 {| sc_index := sc_index s; sc_ready := true;
                                                           sc_list := Some (last_no st) |} |} in
              Ok (st, getscn_loop (ss_blocks st) 0 idx)
          end
      else Ok (st, getscn_loop (ss_blocks st) 0 idx)
  end.

(* elf_ndxscn.c:39-46 *)
Definition elf_ndxscn (st : scns) (p : option sptr) : outcome Z :=
  match p with
  | None => Ok 0
  | Some p => match scn_at st p with Some s => Ok (sc_index s) | None => UB end
  end.

(* elf_nextscn.c:41-85 *)
Definition elf_nextscn (st : scns) (p : option sptr) : outcome (option sptr) :=
  let go (k : nat) (pos : Z) :=
    match nth_error (ss_blocks st) k with
    | None => UB
    | Some b =>
        if pos + 1 <? sl_cnt b then Ok (Some (k, pos + 1))
        else if pos + 1 =? sl_max b then
          match nth_error (ss_blocks st) (S k) with
          | None => Ok None
          | Some b' => if 0 <? sl_cnt b' then Ok (Some (S k, 0)) else UB
          end
        else Ok None
    end in
  match p with
  | None => go O 0
  | Some p =>
      match scn_at st p with
      | None => UB
      | Some s => match sc_list s with None => UB | Some k => go k (snd p) end
      end
  end.

(* elf_getshdrnum.c:40-67 *)
Definition elf_getshdrnum (st : scns) : outcome Z :=
  let k := last_no st in
  match nth_error (ss_blocks st) k with
  | None => UB
  | Some b =>
      if negb (sl_cnt b =? 0) || negb (Nat.eqb k 0) then
        match znth (sl_data b) (sl_cnt b - 1) with
        | None => UB
        | Some s => Ok (u64 (1 + sc_index s))
        end
      else Ok 0
  end.

(* A history of calls, all allocations succeeding: true = elf_newscn,
   false = elf_getscn (elf, 0). *)
Fixpoint scns_run (st : scns) (ops : list bool) : outcome scns :=
  match ops with
  | [] => Ok st
  | true :: r => ' (st, _, _) <- elf_newscn true true true st ;; scns_run st r
  | false :: r => ' (st, _) <- elf_getscn true st 0 ;; scns_run st r
  end.
