(* Which section of a file is meant by the name of a debugging section. *)
From Coq Require Import String.
From Verif Require Import Base BeginModel.
Open Scope Z_scope.
Open Scope list_scope.

(* the names a section may have: plain, of a dwo file, and the GNU compressed forms, .zdebug for .debug *)
Definition forms (N : bytes) : list bytes := [N; N ++ bs ".dwo"; bs ".z" ++ tl N; bs ".z" ++ tl N ++ bs ".dwo"].
(* a section that has the data of this name *)
Definition counts (ingrp : bool) (N : bytes) (s : dsec) (b : bytes) : Prop :=
  d_nobits s = false /\ (ingrp = false -> d_group s = false) /\ (exists nm, d_name s = Some nm /\ In nm (forms N)) /\
  (d_comp s = true -> d_unz s = true) /\ d_data s = Some b /\ b <> [].
(* section number k, counted from 1, is the first that has the data of this name *)
Definition first_with (ingrp : bool) (N : bytes) (secs : list dsec) (k : Z) (b : bytes) : Prop :=
  exists s, znth secs (k - 1) = Some s /\ counts ingrp N s b /\ forall j s' b', 1 <= j < k -> znth secs (j - 1) = Some s' -> ~ counts ingrp N s' b'.
Definition none_with (ingrp : bool) (N : bytes) (secs : list dsec) : Prop := forall s b, In s secs -> ~ counts ingrp N s b.
