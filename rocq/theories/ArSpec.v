(* The archive format, independent of the code: ar(5), System V / GNU variant. *)
From Verif Require Import Base Slice.

(* A number in decimal digits, followed by blanks up to n characters *)
Definition digit (b : Z) : Prop := 48 <= b <= 57.
Definition dec (ds : bytes) : Z := fold_left (fun a b => a * 10 + (b - 48)) ds 0.
Definition field (n : Z) (v : Z) (b : bytes) : Prop := exists ds k, ds <> [] /\ Forall digit ds /\ dec ds = v /\ b = ds ++ repeat 32 k /\ zlen b = n.
(* A member: the name field, the other fields and the contents *)
Record member := Member { m_name : bytes; m_date : Z; m_uid : Z; m_gid : Z; m_mode : bytes; m_data : bytes }.
Definition header (m : member) (h : bytes) : Prop := exists d u g s, zlen (m_name m) = 16 /\ zlen (m_mode m) = 8 /\ field 12 (m_date m) d /\ field 6 (m_uid m) u /\ field 6 (m_gid m) g /\ field 10 (zlen (m_data m)) s /\
  (exists ds k, ds <> [] /\ Forall digit ds /\ m_mode m = ds ++ repeat 32 k) /\ h = m_name m ++ d ++ u ++ g ++ m_mode m ++ s ++ [96; 10].
(* The members one after the other, each starting at an even place *)
Inductive members : list member -> bytes -> Prop :=
| M_nil : members [] []
| M_last m h : header m h -> members [m] (h ++ m_data m)
| M_cons m h pad l b : header m h -> zlen pad = zlen (m_data m) mod 2 -> members l b -> members (m :: l) (h ++ m_data m ++ pad ++ b).
Definition magic : bytes := [33; 60; 97; 114; 99; 104; 62; 10].           (* !<arch>\n *)
(* names *)
Definition padded (l : bytes) : bytes := l ++ repeat 32 (16 - length l).
Definition plain (x : Z) : Prop := x <> 47 /\ x <> 0.
(* the table of long names *)
Fixpoint table (l : list member) : option bytes :=
  match l with [] => None | m :: r => if list_eq_dec Z.eq_dec (m_name m) (padded [47; 47]) then Some (m_data m) else table r end.
Inductive named (t : option bytes) : bytes -> bytes -> Prop :=
| N_short n : n <> [] -> Forall plain n -> (length n <= 15)%nat -> named t (padded (n ++ [47])) n
| N_blank n x : Forall plain (n ++ [x]) -> x <> 32 -> (length n < 15)%nat -> named t (padded (n ++ [x])) (n ++ [x])
| N_index : named t (padded [47]) [47]
| N_sym64 : named t (padded [47; 83; 89; 77; 54; 52; 47]) [47; 83; 89; 77; 54; 52; 47]
| N_table : named t (padded [47; 47]) [47; 47]
| N_long tab a n b ds : t = Some tab -> ds <> [] -> Forall digit ds -> (length ds < 15)%nat -> dec ds = zlen a -> tab = a ++ n ++ 47 :: b -> Forall plain n -> named t (padded (47 :: ds)) n.
(* The symbol index: the number of symbols, the offset of the member of each, and the names, each
   with a NUL.  Numbers have w bytes, the most significant first. *)

Definition index (w : Z) (syms : list (bytes * Z)) : bytes :=
  enc false w (zlen syms) ++ concat (map (fun s : bytes * Z => enc false w (snd s)) syms) ++ concat (map (fun s : bytes * Z => fst s ++ [0]) syms).
(* the two kinds of index *)
Definition index_kind (name : bytes) (w : Z) : Prop := name = padded [47] /\ w = 4 \/ name = padded [47; 83; 89; 77; 54; 52; 47] /\ w = 8.
Fixpoint nuls (l : bytes) : Z := match l with [] => 0 | x :: r => (if x =? 0 then 1 else 0) + nuls r end.
