(* What a written file contains. *)
From Verif Require Import Base WrModel.

(* A piece of the file: where it begins, how long it is, and the bytes that are to be there (None: those that were there before). *)
Definition piece : Type := Z * Z * option bytes.
(* The file [f'] that results from [f]: each piece is in its place; nothing changes outside [lo, hi); what lies in [lo, hi) outside all pieces is fill, or, unless everything is rewritten ([full]), what it was. *)
Definition file_is (byte : Z) (full : bool) (lo hi : Z) (ps : list piece) (f f' : Z -> Z) : Prop :=
  (forall p n b i, In (p, n, Some b) ps -> 0 <= i < zlen b -> Some (f' (p + i)) = znth b i) /\
  (forall p n q, In (p, n, None) ps -> p <= q < p + n -> f' q = f q) /\
  (forall q, q < lo \/ hi <= q -> f' q = f q) /\
  (forall q, lo <= q < hi -> (forall p n o, In (p, n, o) ps -> ~ (p <= q < p + n)) -> f' q = byte \/ (full = false /\ f' q = f q)).

Definition stored (s : wscn) : bool := negb (v_index s =? 0) && negb (v_type s =? 8).
(* the place where the headers end *)
Definition head_end (w : wfile) : Z := match f_phdrs w with None => f_ehsize w | Some ph => f_phoff w + zlen ph end.
Definition apart (p n q m : Z) : Prop := p + n <= q \/ q + m <= p.
(* the blocks of a section, in order, between lo and hi *)
Fixpoint inside (lo : Z) (bs : list wblk) (hi : Z) : Prop := match bs with [] => lo <= hi | b :: r => lo <= w_off b /\ inside (w_off b + zlen (w_buf b)) r hi end.

(* A layout in which nothing overlaps and the headers come first. *)
Record placed (w : wfile) : Prop := {
  pl_start : 0 <= f_start w;
  pl_head : zlen (f_eimg w) = f_ehsize w;
  pl_phdr : match f_phdrs w with None => f_phoff w = 0 | Some _ => f_ehsize w <= f_phoff w end;
  pl_scns : Forall (fun s => stored s = true -> head_end w <= v_off s /\ 0 <= v_size s /\
                             match v_data s with None => True | Some bs => bs <> [] /\ inside 0 bs (v_size s) end) (f_scns w);
  pl_apart : ForallOrdPairs (fun a b => apart (v_off a) (v_size a) (v_off b) (v_size b)) (filter stored (f_scns w));
  pl_table : head_end w <= f_shoff w /\ Forall (fun s => stored s = true -> apart (f_shoff w) (zlen (f_scns w) * f_shent w) (v_off s) (v_size s)) (f_scns w);
  pl_index : forall i s, znth (f_scns w) i = Some s -> v_index s = i;
  pl_image : Forall (fun s => zlen (v_img s) = f_shent w) (f_scns w);
  pl_zero : Forall (fun s => v_index s = 0 -> v_flag s = false) (f_scns w);
  (* the section headers of an existing file are kept in one array *)
  pl_array : match f_arr w with Some a => a = concat (map v_img (f_scns w)) | None => True end }.
(* the section header table comes behind the sections *)
Definition table_last (w : wfile) : Prop := Forall (fun s => stored s = true -> v_off s + v_size s <= f_shoff w) (f_scns w).
(* every section that occupies space in the file has its data in memory *)
Definition all_data (w : wfile) : bool := forallb (fun s => negb (stored s) || match v_data s with Some _ => true | None => false end) (f_scns w).

(* The pieces of the file; [cv t b] is b in the byte order of the file. *)
Section pieces.
  Variable cv : Z -> bytes -> bytes.
  Definition piece_if (d : bool) (p : Z) (t : Z) (b : bytes) : piece := (p, zlen b, if d then Some (cv t b) else None).
  Definition head_pieces (w : wfile) : list piece :=
    piece_if (f_edirty w || f_dirty w) (f_start w) 3 (f_eimg w) :: match f_phdrs w with Some ph => [piece_if (f_pdirty w || f_dirty w) (f_start w + f_phoff w) 6 ph] | None => [] end.
  Definition scn_pieces (w : wfile) (s : wscn) : list piece :=
    if stored s then
      match v_data s with
      | Some bs => map (fun b => piece_if (v_flag s || w_dirty b || f_dirty w) (f_start w + v_off s + w_off b) (w_type b) (w_buf b)) bs
      | None => [(f_start w + v_off s, v_size s, None)]
      end
    else [].
  (* [changed s]: the header of section s is written *)
  Definition table_pieces (changed : wscn -> bool) (w : wfile) : list piece :=
    map (fun s => piece_if (changed s) (f_start w + f_shoff w + v_index s * f_shent w) 9 (v_img s)) (f_scns w).
  Definition pieces (changed : wscn -> bool) (w : wfile) : list piece := head_pieces w ++ flat_map (scn_pieces w) (f_scns w) ++ table_pieces changed w.
End pieces.
(* where the file ends: where the last piece ends *)
Definition file_end (w : wfile) : Z := fold_right Z.max 0 (map (fun x => fst (fst x) + snd (fst x)) (pieces (fun _ b => b) (fun _ => false) w)).
(* nothing that is written is marked as changed *)
Definition clean (w : wfile) : Prop :=
  f_dirty w = false /\ f_edirty w = false /\ (f_pdirty w = false \/ f_phdrs w = None) /\
  Forall (fun s => v_flag s = false /\ v_sflag s = false /\ (stored s = true -> match v_data s with Some bs => Forall (fun b => w_dirty b = false) bs | None => True end)) (f_scns w).
