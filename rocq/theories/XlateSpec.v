(* What byte-order conversion should do, independent of the code. *)
From Verif Require Import Base.

Definition total (ws : list nat) : nat := fold_right Nat.add 0%nat ws.

(* A record with fields of the widths ws: the bytes of each field reversed. *)
Fixpoint swap_widths (ws : list nat) (b : bytes) : bytes :=
  match ws with
  | [] => b
  | w :: r => rev (firstn w b) ++ swap_widths r (skipn w b)
  end.

(* n consecutive records. *)
Fixpoint swap_records (ws : list nat) (n : nat) (b : bytes) : bytes :=
  match n with
  | O => b
  | S k => swap_widths ws (firstn (total ws) b) ++ swap_records ws k (skipn (total ws) b)
  end.

(* Field widths of the ELF types (System V gABI; Elf_Type numbers of libelf.h),
   for ELFCLASS32 / ELFCLASS64.  None: not a table of fixed records. *)
Definition spec_widths (c64 : bool) (ty : Z) : option (list nat) :=
  let a := if c64 then 8%nat else 4%nat in      (* Addr, Off, Xword-or-Word *)
  match ty with
  | 0 => Some [1]%nat                                   (* byte *)
  | 1 | 5 => Some [a]                                   (* address, offset *)
  | 2 => Some [a; a]                                    (* Dyn: d_tag, d_un *)
  | 3 => Some (repeat 1%nat 16                          (* Ehdr: e_ident *)
               ++ [2; 2; 4]%nat ++ [a; a; a] ++ [4; 2; 2; 2; 2; 2; 2]%nat)
  | 4 => Some [2]%nat                                   (* Half *)
  | 6 => Some (if c64 then [4; 4; 8; 8; 8; 8; 8; 8] else repeat 4 8)%nat   (* Phdr *)
  | 7 => Some [a; a; a]                                 (* Rela *)
  | 8 => Some [a; a]                                    (* Rel *)
  | 9 => Some ([4; 4]%nat ++ [a; a; a; a] ++ [4; 4]%nat ++ [a; a])         (* Shdr *)
  | 10 | 12 => Some [4]%nat                             (* Sword, Word *)
  | 11 => Some (if c64 then [4; 1; 1; 2; 8; 8] else [4; 4; 4; 1; 1; 2])%nat   (* Sym *)
  | 13 | 14 => Some [8]%nat                             (* Xword, Sxword *)
  | 20 => Some [2; 2]%nat                               (* Syminfo *)
  | 22 => Some [4; 4; 4; 4; 4]%nat                      (* Lib *)
  | 23 => if c64 then None else Some [4]%nat            (* 32-bit GNU hash: all words *)
  | 24 => Some [a; a]                                   (* auxv *)
  | _ => None
  end.

(* Types converted by the functions which cope with any overlap. *)
Definition spec_simple (c64 : bool) (ty : Z) : bool :=
  match ty with
  | 0 | 1 | 4 | 5 | 10 | 12 | 13 | 14 => true
  | 23 => negb c64
  | _ => false
  end.

(* Move records (elf.h): value, info, offset, repeat, stride, padding. *)
Definition move_widths (c64 : bool) : list nat :=
  if c64 then [8; 8; 8; 2; 2; 1; 1; 1; 1]%nat else [8; 4; 4; 2; 2; 1; 1; 1; 1]%nat.

(* Compressed section: header fields, then untouched data. *)
Definition chdr_widths (c64 : bool) : list nat := if c64 then [4; 4; 8; 8]%nat else [4; 4; 4]%nat.
Definition swap_chdr (c64 : bool) (b : bytes) : bytes :=
  let ws := chdr_widths c64 in
  if (total ws <=? length b)%nat
  then swap_widths ws (firstn (total ws) b) ++ skipn (total ws) b else b.

(* ------------------------------------------------------------------ *)
(* Notes: header words, then name and descriptor, each padded to the alignment
   a (4 or 8), as one payload. *)
Record note := Note { n_namesz : Z; n_descsz : Z; n_type : Z; n_payload : bytes }.
Definition align_up (a x : Z) : Z := (x + a - 1) / a * a.
Definition note_len (a : Z) (n : note) : Z :=
  align_up a (align_up a (12 + n_namesz n) + n_descsz n).
Definition note_ok (a : Z) (n : note) : Prop :=
  is_u32 (n_namesz n) /\ is_u32 (n_descsz n) /\ is_u32 (n_type n) /\
  12 + zlen (n_payload n) = note_len a n.
Definition w32 (le : bool) (x : Z) : bytes := if le then le_bytes 4 x else be_bytes 4 x.
Definition note_bytes (le : bool) (n : note) : bytes :=
  w32 le (n_namesz n) ++ w32 le (n_descsz n) ++ w32 le (n_type n) ++ n_payload n.
Definition notes_bytes (le : bool) (l : list note) : bytes := concat (map (note_bytes le) l).

(* ------------------------------------------------------------------ *)
(* Symbol versioning: a chain of definition (requirement) records, each with a
   chain of auxiliary records. *)
Record verlay := VL {
  vl_ws : list nat;    (* widths of the record *)
  vl_aux : Z;          (* offset of the field holding the distance to the first auxiliary record *)
  vl_next : Z;         (* ... to the next record *)
  vl_aws : list nat;   (* widths of an auxiliary record *)
  vl_anext : Z }.
Definition vl_def : verlay := VL [2; 2; 2; 2; 4; 4; 4]%nat 12 16 [4; 4]%nat 4.
Definition vl_need : verlay := VL [2; 2; 4; 4; 4]%nat 8 12 [4; 2; 2; 4; 4]%nat 12.

Definition word32 (le : bool) (b : bytes) (o : Z) : Z :=
  if le then le_value (zsub b o 4) else be_value (zsub b o 4).

(* The auxiliary chain starting at ao visits exactly the offsets of the list. *)
Fixpoint aux_chain (v : verlay) (le : bool) (b : bytes) (ao : Z) (l : list Z) : Prop :=
  match l with
  | [] => False
  | o :: r => o = ao /\ 0 <= o /\ o + Z.of_nat (total (vl_aws v)) <= zlen b /\
      let nx := word32 le b (o + vl_anext v) in
      match r with
      | [] => nx = 0
      | _ => nx <> 0 /\ aux_chain v le b (o + nx) r
      end
  end.
(* The chain of records starting at off, each with its auxiliary offsets. *)
Fixpoint def_chain (v : verlay) (le : bool) (b : bytes) (off : Z) (l : list (Z * list Z)) : Prop :=
  match l with
  | [] => False
  | (o, auxs) :: r => o = off /\ 0 <= o /\ o + Z.of_nat (total (vl_ws v)) <= zlen b /\
      aux_chain v le b (o + word32 le b (o + vl_aux v)) auxs /\
      let nx := word32 le b (o + vl_next v) in
      match r with
      | [] => nx = 0
      | _ => nx <> 0 /\ def_chain v le b (o + nx) r
      end
  end.

(* All records of a chain: offset and widths, in visiting order. *)
Definition chain_records (v : verlay) (l : list (Z * list Z)) : list (Z * list nat) :=
  flat_map (fun e => (fst e, vl_ws v) :: map (fun ao => (ao, vl_aws v)) (snd e)) l.
Definition in_rec (r : Z * list nat) (x : Z) : Prop :=
  fst r <= x < fst r + Z.of_nat (total (snd r)).
Definition recs_disjoint (rs : list (Z * list nat)) : Prop :=
  ForallOrdPairs (fun p q => forall x, in_rec p x -> in_rec q x -> False) rs.

(* f is b with exactly the records rs byte-swapped. *)
Definition records_swapped (rs : list (Z * list nat)) (b f : bytes) : Prop :=
  zlen f = zlen b /\
  (forall r, In r rs ->
     zsub f (fst r) (Z.of_nat (total (snd r)))
     = swap_widths (snd r) (zsub b (fst r) (Z.of_nat (total (snd r))))) /\
  (forall x, (forall r, In r rs -> ~ in_rec r x) -> znth f x = znth b x).

(* ------------------------------------------------------------------ *)
(* 64-bit GNU hash section: four words, nb 64-bit bloom words, then words. *)
Definition gnuhash_widths (nb nw : nat) : list nat :=
  repeat 4%nat 4 ++ repeat 8%nat nb ++ repeat 4%nat nw.

(* ------------------------------------------------------------------ *)
(* Hypotheses used in the statements. *)
(* Two buffers of len bytes without a common byte. *)
Definition disj (d s len : Z) : Prop := d + len <= s \/ s + len <= d.
(* The alignment of the two kinds of note sections. *)
Definition nal (h8 : bool) : Z := if h8 then 8 else 4.
(* The destination does not start inside the source. *)
Definition fwd (d s len : Z) : Prop := d <= s \/ s + len <= d.
(* ELFDATA2LSB = 1, ELFDATA2MSB = 2. *)
Definition native (le : bool) (encode : Z) : bool :=
  if le then encode =? 1 else encode =? 2.
Definition enc_ok (encode : Z) : Prop := encode = 1 \/ encode = 2.
(* The memory holds bytes. *)
Definition mem_ok (m : Z -> Z) : Prop := forall x, is_u8 (m x).
(* A note header at o whose 32-bit padded size overflows to exactly 8. *)
Definition note_wraps (a : Z) (le : bool) (b : bytes) (o : Z) : Prop :=
  0 <= o /\ o + 12 <= zlen b /\
  align_up a (align_up a (12 + word32 le b o) mod two32 + word32 le b (o + 4)) mod two32 = 8.
(* A complete section: the third word is the number of bloom words. *)
Definition gnuhash_ok (le : bool) (b : bytes) (nb nw : nat) : Prop :=
  zlen b = Z.of_nat (total (gnuhash_widths nb nw)) /\ word32 le b 8 = Z.of_nat nb.
