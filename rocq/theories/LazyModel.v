(* Model of the units of a module that are made when they are first needed: libdwfl/cu.c.
   malloc is taken to work.  What libdw gives about units is a list of units; address ranges are sorted (ArangeModel). *)
From Verif Require Import Base.

(* libdw: one unit of .debug_info, where its first entry is, and its end.  Simplified: a unit that libdw cannot
   read is not in the list. *)
Record lunit := Lunit { u_start : Z; u_die : Z; u_end : Z }.
(* libdwP.h Dwarf_Arange *)
Record larange := Larange { g_addr : Z; g_len : Z; g_off : Z }.

(* a pointer to a struct dwfl_cu: null, an object by its number, or -1 for the end *)
Inductive link := Null | Obj (id : nat) | Last.
(* libdwflP.h struct dwfl_cu: the unit, the offset of the entry that is handed out, and the next one *)
Record lcu := Lcu { o_unit : lunit; o_die : Z; o_next : link }.
(* libdwflP.h:205-216: the objects made, the tree from the offset of the first entry, first_cu, the runs of ranges
   with their units, lazycu *)
Record lst := Lst { l_objs : list lcu; l_tree : list (Z * nat); l_first : link; l_runs : option (list (larange * link)); l_lazy : Z }.

Inductive lerr := E_LIBDW | E_INVALID | E_OUTOFRANGE.
Inductive res (A : Type) := ROk (x : A) | RErr (e : lerr) | RUB.
Arguments ROk {A}. Arguments RErr {A}. Arguments RUB {A}.

Section module.
Variables (units : list lunit) (size : Z) (aranges : list larange).

(* dwarf_nextcu.c:54-: the unit at an offset; none at the end of the section *)
Definition unit_at (off : Z) : option lunit := find (fun u => u_start u =? off) units.
(* dwarf_offdie.c:38-70 *)
Definition unit_of (off : Z) : option lunit :=
  if size <=? off then None else find (fun u => (u_start u <=? off) && (off <? u_end u)) units.

(* cu.c:144-153 less_lazy: the tree is thrown away when nobody needs it *)
Definition less_lazy (s : lst) : lst :=
  if 0 <? l_lazy s - 1 then Lst (l_objs s) (l_tree s) (l_first s) (l_runs s) (l_lazy s - 1)
  else Lst (l_objs s) [] (l_first s) (l_runs s) (l_lazy s - 1).

Definition lookup (t : list (Z * nat)) (d : Z) : option nat := match find (fun p => fst p =? d) t with Some p => Some (snd p) | None => None end.

(* cu.c:170-236 intern_cu *)
Definition intern_cu (off : Z) (s : lst) : res link * lst :=
  if size <=? off + 4 then
    if l_lazy s =? 1 then (ROk Last, less_lazy s) else (RErr E_INVALID, s)
  else
    match unit_of off with
    | None => (RErr E_LIBDW, s)
    | Some u =>
        match lookup (l_tree s) (u_die u) with
        | Some id => (ROk (Obj id), s)
        | None =>
            let id := length (l_objs s) in
            (ROk (Obj id), Lst (l_objs s ++ [Lcu u off Null]) ((u_die u, id) :: l_tree s)
                               (if u_start u =? 0 then Obj id else l_first s) (l_runs s) (l_lazy s))
        end
    end.

Fixpoint set_nth {A : Type} (l : list A) (n : nat) (x : A) : list A :=
  match l, n with [], _ => [] | _ :: r, O => x :: r | y :: r, S n => y :: set_nth r n x end.
(* the store through nextp *)
Definition store (last : option nat) (x : link) (s : lst) : lst :=
  match last with
  | None => Lst (l_objs s) (l_tree s) x (l_runs s) (l_lazy s)
  | Some id => match nth_error (l_objs s) id with
               | Some o => Lst (set_nth (l_objs s) id (Lcu (o_unit o) (o_die o) x)) (l_tree s) (l_first s) (l_runs s) (l_lazy s)
               | None => s end
  end.

(* cu.c:241-286 __libdwfl_nextcu; the result None is a null pointer.  The case that dwarf_nextcu gives -1 for the
   next offset, after a unit with a bad length, is left out. *)
Definition nextcu (last : option nat) (s : lst) : res (option nat) * lst :=
  let known := match last with None => Some (0, l_first s)
                             | Some id => match nth_error (l_objs s) id with Some o => Some (u_end (o_unit o), o_next o) | None => None end end in
  match known with
  | None => (RUB, s)  (* no such object *)
  | Some (off, nx) =>
      match nx with
      | Last => (ROk None, s)
      | Obj id => (ROk (Some id), s)
      | Null =>
          match unit_at off with
          | None => (ROk None, s)
          | Some u =>
              match intern_cu (u_die u) s with
              | (ROk x, s) => let s := store last x s in (ROk (match x with Obj id => Some id | _ => None end), s)
              | (RErr e, s) => (RErr e, s)
              | (RUB, s) => (RUB, s)
              end
          end
      end
  end.

(* cu.c:69-82: one record for each run of ranges of one unit *)
Fixpoint runs (lastcu : option Z) (l : list larange) : list larange :=
  match l with
  | [] => []
  | a :: r => if (match lastcu with Some c => negb (g_off a =? c) | None => true end) then a :: runs (Some (g_off a)) r else runs lastcu r
  end.

(* cu.c:95-128: the search.  [tail] is the last range of libdw *)
Fixpoint run_search (k : nat) (l : list larange) (tail : larange) (addr lo hi : Z) : outcome (option Z) :=
  if lo <? hi then
    match k with
    | O => Fuel
    | S k =>
        let idx := (lo + hi) / 2 in
        match znth l idx with
        | None => UB
        | Some a =>
            if addr <? g_addr a then run_search k l tail addr lo idx
            else if g_addr a <? addr then
              if idx + 1 <? zlen l then
                match znth l (idx + 1) with
                | None => UB
                | Some b => if g_addr b <=? addr then run_search k l tail addr (idx + 1) hi else Ok (Some idx)
                end
              else if u64 (g_addr tail + g_len tail) <? addr then Ok None else Ok (Some idx)
            else Ok (Some idx)
        end
    end
  else Ok None.

(* cu.c:47-131 addrarange: the number of the run.  The address is relative to the module already *)
Definition load_runs (s : lst) : lst :=
  match l_runs s with
  | Some _ => s
  | None => let r := map (fun a => (a, Null)) (runs None aranges) in Lst (l_objs s) (l_tree s) (l_first s) (Some r) (l_lazy s + zlen r)
  end.
Definition find_run (addr : Z) : outcome (option Z) :=
  let r := runs None aranges in run_search (S (length r)) r (last aranges (Larange 0 0 0)) addr 0 (zlen r).

(* cu.c:290-306 arangecu *)
Definition arangecu (i : Z) (s : lst) : res nat * lst :=
  match l_runs s with
  | None => (RUB, s)
  | Some r =>
      match nth_error r (Z.to_nat i) with
      | None => (RUB, s)
      | Some (a, x) =>
          match x with
          | Obj id => (ROk id, s)
          | Last => (RUB, s)  (* the value -1 as a pointer *)
          | Null =>
              match intern_cu (g_off a) s with
              | (ROk (Obj id), s) => (ROk id, less_lazy (Lst (l_objs s) (l_tree s) (l_first s) (Some (set_nth r (Z.to_nat i) (a, Obj id))) (l_lazy s)))
              | (ROk _, s) => (RUB, s)  (* assert *)
              | (RErr e, s) => (RErr e, s)
              | (RUB, s) => (RUB, s)
              end
          end
      end
  end.

(* cu.c:308-314 __libdwfl_addrcu *)
Definition addrcu (addr : Z) (s : lst) : res nat * lst :=
  let s := load_runs s in
  match find_run addr with
  | Ok (Some i) => arangecu i s
  | Ok None => (RErr E_OUTOFRANGE, s)
  | _ => (RUB, s)
  end.

(* dwfl_module_getdwarf.c:1373 *)
Definition start : lst := Lst [] [] Null None 1.

(* the calls of a user: dwfl_module_nextcu from the start or after an entry handed out, and dwfl_module_addrdie *)
Inductive call := Next (last : option nat) | Addr (a : Z).
Definition step (c : call) (s : lst) : res (option nat) * lst :=
  match c with
  | Next last => nextcu last s
  | Addr a => match addrcu a s with (ROk id, s) => (ROk (Some id), s) | (RErr e, s) => (RErr e, s) | (RUB, s) => (RUB, s) end
  end.
Fixpoint history (cs : list call) (s : lst) : list (res (option nat)) * lst :=
  match cs with
  | [] => ([], s)
  | c :: r => let (x, s) := step c s in let (xs, s) := history r s in (x :: xs, s)
  end.
End module.
