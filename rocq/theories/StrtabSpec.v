(* Specification vocabulary for the string table builder. *)
From Verif Require Import Base.

(* s ends t *)
Definition suffix (s t : bytes) : Prop := exists p, t = p ++ s.
Definition proper_suffix (s t : bytes) : Prop := suffix s t /\ s <> t.

(* A C string as passed to the builder: some bytes and the terminating NUL. *)
Definition c_string (s : bytes) : Prop := exists b, s = b ++ [0].

(* The strings of l that are not a proper suffix of another one: only these
   need room of their own. *)
Definition maximal_string (l : list bytes) (s : bytes) : Prop :=
  In s l /\ forall t, In t l -> ~ proper_suffix s t.

Definition total_length (l : list bytes) : Z := fold_right (fun s n => zlen s + n) 0 l.

(* The successful additions of a history of requests l with results es: each
   string with the entry returned for it. *)
Fixpoint added {A B : Type} (l : list (bytes * A)) (es : list (option B)) : list (bytes * B) :=
  match l, es with
  | (s, _) :: l, Some p :: es => (s, p) :: added l es
  | _ :: l, None :: es => added l es
  | _, _ => []
  end.
