(* What a history of reports is to leave, without the list of the code. *)
From Verif Require Import Base ReportModel.

(* calls *)
Inductive call := Begin | BeginAdd | Report (k : key) | Clash (k : key) | EndReport (removed : option (Z -> Z)).
Definition do (c : call) (s : st) : st :=
  match c with
  | Begin => report_begin s
  | BeginAdd => report_begin_add s
  | Report k => fst (report_module k s)
  | Clash k => report_clash k s
  | EndReport f => fst (fst (report_end f s))
  end.
Fixpoint doall (cs : list call) (s : st) : st := match cs with [] => s | c :: cs => doall cs (do c s) end.
(* the modules in the order of dwfl_getmodules, as name, addresses and handle *)
Definition modules (s : st) : list (key * Z) := map (fun m => (d_key m, d_id m)) (t_mods s).
(* the first occurrences, in order *)
Fixpoint firsts (ks : list key) (seen : list key) : list key :=
  match ks with
  | [] => []
  | k :: ks => if existsb (key_eqb k) seen then firsts ks seen else k :: firsts ks (k :: seen)
  end.
