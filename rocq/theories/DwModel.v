(* Common parts of the libdw models: error codes, section access (libdwP.h).
   A section is the bytes of its Elf_Data, or absent; d_buf is not NULL.  The unaligned
   reads of memory-access.h deliver the value in the byte order of the file (proved in
   LebProps, C03_unaligned_read); here [fle] is that byte order, true for little endian.
   Reading outside the bytes is UB. *)
From Verif Require Import Base.

(* libdwP.h:95-145 *)
Definition DWARF_E_NOMEM := 10.
Definition DWARF_E_NO_ENTRY := 15.
Definition DWARF_E_INVALID_DWARF := 16.
Definition DWARF_E_NO_REFERENCE := 23.
Definition DWARF_E_VERSION := 28.
Definition DWARF_E_NO_MATCH := 37.
Definition DWARF_E_INVALID_OFFSET := 39.
Definition DWARF_E_INVALID_CFI := 42.
Definition DWARF_E_INVALID_OPCODE := 44.
Definition DWARF_E_NO_LOC_VALUE := 33.
Definition DWARF_E_INVALID_ARANGE_IDX := 36.
Definition DWARF_E_INVALID_DEBUG_LINE := 26.

Definition fval (fle : bool) (b : bytes) : Z := if fle then le_value b else be_value b.
(* memory-access.h read_Nubyte_unaligned *)
Definition rd (fle : bool) (mem : bytes) (p n : Z) : outcome Z :=
  if (0 <=? p) && (p + n <=? zlen mem) then Ok (fval fle (zsub mem p n)) else UB.

(* libdwP.h:817-827 __libdw_checked_get_data, :829-846 __libdw_offset_in_section *)
Definition offset_in_section (s : option bytes) (offset size : Z) : outcome unit :=
  match s with
  | None => Err DWARF_E_INVALID_DWARF
  | Some d => if (zlen d <? offset) || (zlen d <? size) || (zlen d - size <? offset)
              then Err DWARF_E_INVALID_OFFSET else Ok tt
  end.
(* libdwP.h:842-857 __libdw_in_section; addr is relative to d_buf *)
Definition in_section (d : bytes) (addr size : Z) : bool :=
  negb ((addr <? 0) || (zlen d <? size) || (zlen d - size <? addr)).
(* libdwP.h:860-896 READ_AND_RELOCATE without relocations, __libdw_read_address(_inc) *)
Definition read_address (fle : bool) (d : bytes) (addr width : Z) : outcome Z :=
  if in_section d addr width then rd fle d addr (if width =? 4 then 4 else 8)
  else Err DWARF_E_INVALID_OFFSET.
(* libdwP.h:898-918 __libdw_read_offset(_inc): sec_ret is the section pointed to *)
Definition read_offset (fle : bool) (d : bytes) (addr width : Z) (sec_ret : option bytes) (size : Z) : outcome Z :=
  o <- read_address fle d addr width ;;
  _ <- offset_in_section sec_ret o size ;;
  Ok o.

Definition LENGTH_64_BIT : Z := two32 - 1.                  (* dwarf.h:1018-1020 *)
Definition LENGTH_MIN_ESCAPE : Z := two32 - 16.

(* ------------------------------------------------------------------ *)
Lemma rd_in : forall fle mem p n, 0 <= p -> p + n <= zlen mem -> rd fle mem p n = Ok (fval fle (zsub mem p n)).
Proof. intros fle mem p n H1 H2. unfold rd. replace ((0 <=? p) && (p + n <=? zlen mem)) with true by lia. reflexivity. Qed.
Lemma fval_bytes : forall fle n x, 0 <= x < 256 ^ Z.of_nat n -> fval fle (if fle then le_bytes n x else be_bytes n x) = x.
Proof. intros [] n x H; unfold fval; [rewrite le_value_bytes|rewrite be_value_bytes]; apply Z.mod_small, H. Qed.
Lemma fval_bound : forall fle b, bytes_ok b -> 0 <= fval fle b < 256 ^ zlen b.
Proof.
  intros fle b H. unfold fval, be_value. destruct fle; [apply le_value_bound, H|].
  rewrite <- (zlen_rev _ b). apply le_value_bound. apply Forall_rev, H.
Qed.
Lemma bytes_ok_part : forall b o n, bytes_ok b -> bytes_ok (zsub b o n).
Proof.
  intros b o n H. unfold zsub, bytes_ok in *. apply Forall_forall. intros x X.
  rewrite Forall_forall in H. apply H.
  assert (In x (skipn (Z.to_nat o) b)) as I2.
  { rewrite <- (firstn_skipn (Z.to_nat n) (skipn (Z.to_nat o) b)). apply in_or_app. left. exact X. }
  rewrite <- (firstn_skipn (Z.to_nat o) b). apply in_or_app. right. exact I2.
Qed.
Lemma rd_bound : forall fle mem p n v, bytes_ok mem -> 0 <= n -> rd fle mem p n = Ok v -> 0 <= v < 256 ^ n.
Proof.
  intros fle mem p n v B N H. unfold rd in H. destruct ((0 <=? p) && (p + n <=? zlen mem)) eqn:E; [|discriminate].
  injection H as <-. pose proof (fval_bound fle (zsub mem p n) (bytes_ok_part mem p n B)) as X.
  rewrite zsub_length in X by lia. exact X.
Qed.
