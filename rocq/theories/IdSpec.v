(* What the links to separate debug files and the build ID are. *)
From Verif Require Import Base XlateModel XlateSpec XlateProof XlateNoteProof XlateVerProof NoteModel NoteProps IdModel.

(* the contents of .gnu_debuglink: a string, padding, and the checksum of the file *)
Definition is_debuglink (le : bool) (raw name : bytes) (crc : Z) : Prop :=
  exists pad w, raw = name ++ 0 :: pad ++ w /\ ~ In 0 name /\ length w = 4%nat /\ crc = (if le then le_value w else be_value w).
(* the contents of .gnu_debugaltlink: a string and a build ID *)
Definition is_altlink (d name id : bytes) : Prop := d = name ++ 0 :: id /\ ~ In 0 name /\ id <> [].
(* a build ID note *)
Definition is_id (n : note) : Prop := no_type n = 3 /\ no_name n = [71; 78; 85; 0].
(* the section or segment s has the bytes b, which are the notes ns *)
Definition has_notes (le : bool) (s : nsec) (b : bytes) (ns : list note) : Prop :=
  ((n_note s = false \/ n_data s = None) /\ ns = []) \/
  (n_note s = true /\ exists ty tail, n_data s = Some (NData ty (bmem b) (zlen b)) /\ note_type ty /\ Forall note_ok ns /\ bytes_ok tail /\ zlen tail < 12 /\
     b = concat (map (note_bytes le (alignment ty)) ns) ++ tail /\ zlen b < 2147483648).
