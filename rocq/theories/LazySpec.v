(* What the units of a module promise. *)
From Verif Require Import Base LazyModel.

(* the units follow each other from the start of the section to its end; the first entry of each comes after its
   header, and more than four bytes of the section are left there *)
Fixpoint chain (size off : Z) (l : list lunit) : Prop :=
  match l with
  | [] => off = size
  | u :: r => u_start u = off /\ off < u_die u /\ u_die u < u_end u /\ u_die u + 4 < size /\ u_end u <= size /\ chain size (u_end u) r
  end.

(* the entry handed out under a number is the first of the unit *)
Definition shows (s : lst) (id : nat) (u : lunit) : Prop := exists o, nth_error (l_objs s) id = Some o /\ o_unit o = u /\ o_die o = u_die u.

(* the range an address belongs to: the last run that starts at or before it *)
Definition ranges_ok (l : list larange) : Prop :=
  Forall (fun a => 0 <= g_addr a /\ 0 < g_len a /\ g_addr a + g_len a < 2 ^ 64) l /\
  forall x a y b z, l = x ++ a :: y ++ b :: z -> g_addr a + g_len a <= g_addr b.
Definition covered (a : larange) (addr : Z) : Prop := g_addr a <= addr < g_addr a + g_len a.

Definition found_unit (units : list lunit) (off : Z) (r : res (option nat)) (s : lst) : Prop :=
  exists u j, In u units /\ u_die u = off /\ r = ROk (Some j) /\ shows s j u.

(* what one call answers *)
Definition answer (units : list lunit) (ranges : list larange) (c : call) (r : res (option nat)) (s : lst) : Prop :=
  match c with
  | Next None => match units with [] => r = ROk None | u :: _ => exists j, r = ROk (Some j) /\ shows s j u end
  | Next (Some id) =>
      exists u, In u units /\ shows s id u /\
      ((exists v j, In v units /\ u_start v = u_end u /\ r = ROk (Some j) /\ shows s j v) \/ ((forall v, In v units -> u_start v <> u_end u) /\ r = ROk None))
  | Addr a =>
      (forall g, In g ranges -> covered g a -> found_unit units (g_off g) r s) /\
      (r = RErr E_OUTOFRANGE \/ exists g, In g ranges /\ g_addr g <= a /\ found_unit units (g_off g) r s)
  end.

(* only entries handed out earlier are continued from *)
Fixpoint fair (seen : list nat) (cs : list call) (rs : list (res (option nat))) : Prop :=
  match cs, rs with
  | c :: cs, r :: rs =>
      (match c with Next (Some id) => In id seen | _ => True end) /\ fair (match r with ROk (Some id) => id :: seen | _ => seen end) cs rs
  | _, _ => True
  end.
