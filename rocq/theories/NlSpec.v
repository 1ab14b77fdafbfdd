(* What nlist promises. *)
From Verif Require Import Base NlModel HashSpec.

(* the table that counts: the first SHT_SYMTAB (2) section, without one the last SHT_DYNSYM (11) *)
Definition counts (scns : list nscn) (s : nscn) : Prop :=
  (exists a b, scns = a ++ s :: b /\ s_type s = 2 /\ Forall (fun x => s_type x <> 2) a) \/
  (Forall (fun x => s_type x <> 2) scns /\ exists a b, scns = a ++ s :: b /\ s_type s = 11 /\ Forall (fun x => s_type x <> 11) b).

(* a section whose symbols can all be read, as the list of names and symbols *)
Definition readable (s : nscn) (syms : list (bytes * nsym)) : Prop :=
  s_hdr s = true /\ s_data s = true /\ s_syms s = map (fun p => Some (snd p, Some (fst p))) syms.

(* the last symbol of a name *)
Definition last_of (n : bytes) (syms : list (bytes * nsym)) (y : nsym) : Prop :=
  exists a b, syms = a ++ (n, y) :: b /\ ~ In n (map fst b).

(* the entry that the caller gets back for a name: value as a long, section as a short, type *)
Definition entry_for (syms : list (bytes * nsym)) (e e' : nent) : Prop :=
  exists n, e_name e = Some n /\ e_name e' = Some n /\ e_sclass e' = 0 /\ e_numaux e' = 0 /\
  ((exists y, last_of n syms y /\ e_value e' = s64 (y_value y) /\ e_scnum e' = s16 (y_shndx y) /\ e_type e' = y_info y mod 16) \/
   (~ In n (map fst syms) /\ e_value e' = 0 /\ e_scnum e' = 0 /\ e_type e' = 0)).

(* the caller's array: requests with names, an entry that ends the list, whatever follows *)
Definition request (e : nent) : Prop := exists n, e_name e = Some n /\ n <> [] /\ cstring n.
Definition ends (e : nent) : Prop := e_name e = None \/ e_name e = Some [].

Definition nothing (e : nent) : nent := Nent (e_name e) 0 0 0 0 0.
