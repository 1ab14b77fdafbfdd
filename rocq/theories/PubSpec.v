(* The sets of .debug_pubnames as DWARF describes them (DWARF 4, 6.1.1 and 7.19), written
   without looking at the code. *)
From Verif Require Import Base DwModel Slice.

(* a set: the format, the unit it belongs to, the size of the unit's entries, the names
   with the offsets of their entries in the unit, and bytes after the terminating 0 *)
Record nset := NS { n_wide : bool; n_unit : Z; n_size : Z; n_names : list (Z * bytes); n_pad : bytes }.
Definition width (s : nset) : Z := if n_wide s then 8 else 4.
Definition pair (fle : bool) (w : Z) (e : Z * bytes) : bytes := enc fle w (fst e) ++ snd e ++ [0].
Definition body (fle : bool) (s : nset) : bytes :=
  concat (map (pair fle (width s)) (n_names s)) ++ enc fle (width s) 0 ++ n_pad s.
Definition head (fle : bool) (s : nset) (len : Z) : bytes :=
  (if n_wide s then enc fle 4 (two32 - 1) ++ enc fle 8 len else enc fle 4 len) ++ enc fle 2 2 ++ enc fle (width s) (n_unit s) ++ enc fle (width s) (n_size s).
Definition set_bytes (fle : bool) (s : nset) : bytes :=
  head fle s (2 + 2 * width s + zlen (body fle s)) ++ body fle s.

Definition cstr_ok (n : bytes) : Prop := Forall (fun c => c <> 0) n.
(* the fields fit, and the unit is in .debug_info *)
Definition set_ok (fle : bool) (info : bytes) (s : nset) : Prop :=
  0 <= n_unit s < 256 ^ width s /\ n_unit s + 4 <= zlen info /\
  Forall (fun e => 0 < fst e < 256 ^ width s /\ n_unit s + fst e < two64 /\ cstr_ok (snd e)) (n_names s) /\
  2 + 2 * width s + zlen (body fle s) < (if n_wide s then two64 else two32 - 16).

(* a section: the sets one after the other, and at most 14 bytes that are not a set *)
Definition section (fle : bool) (l : list nset) (tail : bytes) : bytes := concat (map (set_bytes fle) l) ++ tail.

(* where the first entry of a unit lies: behind a header of 11 bytes, or of 23 in the
   64-bit format (DWARF 4, 7.5.1.1; the initial length begins with 0xffffffff) *)
Definition unit_header (info : bytes) (u : Z) : Z := if list_eq_dec Z.eq_dec (zsub info u 4) [255; 255; 255; 255] then 23 else 11.

(* the name, with the offset in the section behind its entry *)
Record named := Named { nm_cu : Z; nm_die : Z; nm_name : bytes; nm_end : Z }.
Fixpoint names_at (w cu unit_ p : Z) (l : list (Z * bytes)) : list named :=
  match l with
  | [] => []
  | (o, n) :: l => let e := p + w + zlen n + 1 in Named cu (unit_ + o) n e :: names_at w cu unit_ e l
  end.
Definition first_at (s : nset) : Z := (if n_wide s then 12 else 4) + 2 + 2 * width s.
Fixpoint all_names (fle : bool) (info : bytes) (p : Z) (l : list nset) : list named :=
  match l with
  | [] => []
  | s :: l => names_at (width s) (n_unit s + unit_header info (n_unit s)) (n_unit s) (p + first_at s) (n_names s)
              ++ all_names fle info (p + zlen (set_bytes fle s)) l
  end.

(* the calls of the callback until it returns something else than 0 *)
Fixpoint visit {A} (cb : A -> named -> A * Z) (a : A) (l : list named) : A * option Z :=
  match l with
  | [] => (a, None)
  | x :: l => let '(a, code) := cb a x in if code =? 0 then visit cb a l else (a, Some (nm_end x))
  end.
