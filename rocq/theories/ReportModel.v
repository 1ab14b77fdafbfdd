(* The list of modules while modules are reported: libdwfl/dwfl_module.c, and the part of
   dwfl_report_elf.c that gives a module back.

   What is modelled: dwfl_report_begin, dwfl_report_begin_add, dwfl_report_module,
   dwfl_report_end and dwfl_end as they change the list, and the handles that are freed.
   Simplifications: malloc succeeds and gives a pointer it has not given before (a handle that
   is given again after a free is told apart from the freed one); the segment lookup table (SegModel) is left out. *)
From Verif Require Import Base.

(* a key: name, low_addr, high_addr *)
Definition key : Type := bytes * Z * Z.
Definition key_eqb (a b : key) : bool := let '(n, l, h) := a in let '(n', l', h') := b in (l =? l') && (h =? h') && (if list_eq_dec Z.eq_dec n n' then true else false).
(* libdwflP.h:185-250 struct Dwfl_Module: the pointer, the key and gc *)
Record md := Md { d_id : Z; d_key : key; d_gc : bool }.
(* the list, the next pointer that malloc gives, and what has been freed, last first *)
Record st := St { t_mods : list md; t_next : Z; t_freed : list Z }.
Definition empty : st := St [] 1 [].

(* dwfl_module.c:135-146 dwfl_report_begin *)
Definition report_begin (s : st) : st := St (map (fun m => Md (d_id m) (d_key m) true) (t_mods s)) (t_next s) (t_freed s).
(* dwfl_module.c:127-132 dwfl_report_begin_add *)
Definition report_begin_add (s : st) : st := s.
(* dwfl_module.c:172-188: the loop; i: number of modules before, tail: where tailp is; the
   matching module's place if there is one *)
Fixpoint scan (k : key) (l : list md) (i tail : nat) : option (nat * md) * nat :=
  match l with
  | [] => (None, tail)
  | m :: l => if key_eqb (d_key m) k then (Some (i, m), tail) else scan k l (S i) (if d_gc m then tail else S i)
  end.
Definition remove_at (i : nat) (l : list md) : list md := firstn i l ++ skipn (S i) l.
(* dwfl_module.c:149-162 use *)
Definition insert_at (i : nat) (m : md) (l : list md) : list md := firstn i l ++ m :: skipn i l.
(* dwfl_module.c:164-209 dwfl_report_module: the handle *)
Definition report_module (k : key) (s : st) : st * Z :=
  match scan k (t_mods s) 0 0 with
  | (Some (i, m), tail) => (St (insert_at tail (Md (d_id m) (d_key m) false) (remove_at i (t_mods s))) (t_next s) (t_freed s), d_id m)
  | (None, tail) => (St (insert_at tail (Md (t_next s) k false) (t_mods s)) (t_next s + 1) (t_freed s), t_next s)
  end.
(* dwfl_report_elf.c:253-269: a module of the name and addresses exists with another file; NULL *)
Definition report_clash (k : key) (s : st) : st :=
  let '(s, h) := report_module k s in
  St (map (fun m => if d_id m =? h then Md (d_id m) (d_key m) true else m) (t_mods s)) (t_next s) (t_freed s).
(* dwfl_module.c:218-243 dwfl_report_end: the list, what is freed, what removed is called with, the result *)
Fixpoint sweep (removed : option (Z -> Z)) (l : list md) : list md * list Z * list Z * Z :=
  match l with
  | [] => ([], [], [], 0)
  | m :: r =>
    if d_gc m then
      match removed with
      | Some f =>
        if negb (f (d_id m) =? 0) then (l, [], [d_id m], f (d_id m))
        else let '(k, fr, c, x) := sweep removed r in (k, d_id m :: fr, d_id m :: c, x)
      | None => let '(k, fr, c, x) := sweep removed r in (k, d_id m :: fr, c, x)
      end
    else let '(k, fr, c, x) := sweep removed r in (m :: k, fr, c, x)
  end.
Definition report_end (removed : option (Z -> Z)) (s : st) : st * list Z * Z :=
  let '(k, fr, c, x) := sweep removed (t_mods s) in (St k (t_next s) (rev fr ++ t_freed s), c, x).
(* dwfl_end.c:47-53: all modules are freed *)
Definition dwfl_end (s : st) : st := St [] (t_next s) (rev (map d_id (t_mods s)) ++ t_freed s).
