(* What the calls that make program headers promise, for a file under construction. *)
From Verif Require Import Base PhdrModel.

Inductive op := NewEhdr | NewScn | NewPhdr (count : Z) (memory : bool) | Write (i : Z) (v : phdr).
Inductive answer := Done | Table (l : list phdr) | Refused.

(* a call, or a store of the caller through the pointer to the table; [memory] says whether the allocation that the call may need works *)
Definition step (c64 : bool) (o : op) (e : elf) : outcome answer * elf :=
  match o with
  | NewEhdr => match newehdr c64 e with (Ok _, e') => (Ok Done, e') | (Err _, e') => (Ok Refused, e') | (UB, e') => (UB, e') | (Fuel, e') => (Fuel, e') end
  | NewScn => match newscn e with (Ok _, e') => (Ok Done, e') | (Err _, e') => (Ok Refused, e') | (UB, e') => (UB, e') | (Fuel, e') => (Fuel, e') end
  | NewPhdr c m =>
      match newphdr c64 (fun _ => m) e c with
      | (Ok (Some l), e') => (Ok (Table l), e') | (Ok None, e') => (Ok Done, e') | (Err _, e') => (Ok Refused, e') | (UB, e') => (UB, e') | (Fuel, e') => (Fuel, e') end
  | Write i v =>
      match t_tab e with
      | Some (m, l) => if (0 <=? i) && (i <? zlen l) then (Ok Done, set_tab e (Some (m, zset l i v))) else (Ok Refused, e)
      | None => (Ok Refused, e)
      end
  end.
Fixpoint run (c64 : bool) (ops : list op) (e : elf) : outcome (list answer * elf) :=
  match ops with
  | [] => Ok ([], e)
  | o :: r => match step c64 o e with
              | (Ok a, e') => ' p <- run c64 r e' ;; Ok (a :: fst p, snd p)
              | (Err x, _) => Err x | (UB, _) => UB | (Fuel, _) => Fuel end
  end.

(* The file as its author sees it: is there a header, is there a section, the program headers. *)
Record file := File { f_ehdr : bool; f_scn : bool; f_tab : list phdr }.
Definition zeros (n : Z) : list phdr := repeat (repeat 0 8) (Z.to_nat n).
Definition author (o : op) (f : file) : answer * file :=
  match o with
  | NewEhdr => (Done, File true (f_scn f) (f_tab f))
  | NewScn => (Done, File (f_ehdr f) true (f_tab f))
  | NewPhdr c m =>
      if negb (f_ehdr f) || (2 ^ 32 <=? c) then (Refused, f)
      else if c =? 0 then (Done, File true (f_scn f) [])
      else if (c =? zlen (f_tab f)) && (c <? 65535) then (Table (zeros c), File true (f_scn f) (zeros c))  (* needs no memory *)
      else if (65535 <=? c) && negb (f_scn f) then (Refused, f)
      else if negb m then (Refused, f)
      else (Table (zeros c), File true (f_scn f) (zeros c))
  | Write i v => if (0 <=? i) && (i <? zlen (f_tab f)) then (Done, File (f_ehdr f) (f_scn f) (zset (f_tab f) i v)) else (Refused, f)
  end.
Fixpoint authors (ops : list op) (f : file) : list answer * file :=
  match ops with [] => ([], f) | o :: r => let (a, f1) := author o f in let (l, f2) := authors r f1 in (a :: l, f2) end.
