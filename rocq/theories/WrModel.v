(* Writing a file: libelf/elf32_updatefile.c (and elf64_updatefile.c, the same source with LIBELFBITS 64).
   The file, or the mapping, is a function from positions to bytes.  Conversion to the other byte order (modelled in XlateModel.v)
   is a parameter here: [cv t b] are the converted bytes of the record or buffer b of type t.  Allocation and writing do not fail, d_buf points to d_size bytes, and buffers do not lie in the mapping
   (so that the copies made in updatemmap, :252-306, do not matter); positions do not exceed 2^63. *)
From Verif Require Import Base ElfErr.

Definition store := Z -> Z.
(* pwrite of the whole block, memcpy and memmove into the mapping *)
Definition put (f : store) (p : Z) (b : bytes) : store := fun q => if (p <=? q) && (q <? p + zlen b) then match znth b (q - p) with Some x => x | None => f q end else f q.

(* Elf_Data_List: d_type, d_off, the d_size bytes at d_buf, ELF_F_DIRTY *)
Record wblk := Wb { w_type : Z; w_off : Z; w_buf : bytes; w_dirty : bool }.
(* Elf_Scn: index, sh_type, sh_offset, sh_size, ELF_F_DIRTY in flags and in shdr_flags, the data (None: data_list_rear is NULL), the section header in memory *)
Record wscn := Ws { v_index : Z; v_type : Z; v_off : Z; v_size : Z; v_flag : bool; v_sflag : bool; v_data : option (list wblk); v_img : bytes }.
(* the file: ELF_F_DIRTY in flags, ehdr_flags and phdr_flags; ELF header in memory, e_ehsize, e_phoff, the program headers in memory (None: phdr is NULL), e_shoff, e_shentsize, the sections with section 0,
   the array of section headers of the file (None: state.shdr is NULL), start_offset *)
Record wfile := Wf { f_dirty : bool; f_edirty : bool; f_pdirty : bool; f_eimg : bytes; f_ehsize : Z; f_phoff : Z; f_phdrs : option bytes; f_shoff : Z; f_shent : Z; f_scns : list wscn; f_arr : option bytes; f_start : Z }.

Definition SHT_NOBITS : Z := 8.
Definition T_EHDR : Z := 3.
Definition T_PHDR : Z := 6.
Definition T_SHDR : Z := 9.
Definition FILLBUFSIZE : Z := 4096.
(* change_bo *)
Definition conv (bo : bool) (cv : Z -> bytes -> bytes) (t : Z) (b : bytes) : bytes := if bo then cv t b else b.

(* :51-82 compare_sections; :92-101 sort_sections (the order is total, so that the result does not depend on how qsort works) *)
Definition scn_le (a b : wscn) : bool :=
  if v_off a <? v_off b then true else if v_off b <? v_off a then false
  else if v_size a <? v_size b then true else if v_size b <? v_size a then false
  else v_index a <=? v_index b.
Fixpoint sort_ins (s : wscn) (l : list wscn) : list wscn := match l with [] => [s] | x :: r => if scn_le s x then s :: l else x :: sort_ins s r end.
Definition sort_scns (l : list wscn) : list wscn := fold_right sort_ins [] l.

(* :477-508 fill: the buffer, of which the first [filled] bytes are filled, is part of the state *)
Fixpoint fill_loop (fuel : nat) (f : store) (pos len : Z) (buf : bytes) (filled : Z) : outcome store :=
  match fuel with
  | O => Fuel
  | S k => let n := Z.min filled len in let f := put f pos (zsub buf 0 n) in
           if 0 <? len - n then fill_loop k f (pos + n) (len - n) buf filled else Ok f
  end.
Definition fill (byte : Z) (f : store) (pos len : Z) (fs : bytes * Z) : outcome (store * (bytes * Z)) :=
  let '(buf, filled) := fs in
  let fill_len := Z.min len FILLBUFSIZE in
  let '(buf, filled) := if (filled <? fill_len) && (filled <? FILLBUFSIZE)
                        then (zsub buf 0 filled ++ repeat byte (Z.to_nat (fill_len - filled)) ++ zsub buf fill_len (zlen buf - fill_len), fill_len) else (buf, filled) in
  f <- fill_loop (S (Z.to_nat len)) f pos len buf filled ;; Ok (f, (buf, filled)).

(* what the loop over the sections carries: the file, the fill buffer, last_offset, previous_scn_changed *)
Record wst := Wst { x_f : store; x_fill : bytes * Z; x_last : Z; x_prev : bool }.
Section writer.
  Variable byte : Z.                      (* __libelf_fill_byte *)
  Variable bo : bool.
  Variable cv : Z -> bytes -> bytes.

  (* :711-793: the data of one section *)
  Fixpoint write_blocks (w : wfile) (s : wscn) (start : Z) (bs : list wblk) (st : wst) (changed : bool) : outcome (wst * bool) :=
    match bs with
    | [] => Ok (st, changed)
    | b :: r =>
      let dirty := v_flag s || w_dirty b || f_dirty w in
      ' (f, fs) <- (if (x_last st <? start + w_off b) && ((x_prev st && (w_off b =? 0)) || dirty)
                    then fill byte (x_f st) (x_last st) (start + w_off b - x_last st) (x_fill st) else Ok (x_f st, x_fill st)) ;;
      let last := start + w_off b in
      let f := if dirty then put f last (conv bo cv (w_type b) (w_buf b)) else f in
      write_blocks w s start r (Wst f fs (last + zlen (w_buf b)) (x_prev st)) (changed || dirty)
    end.
  (* :692-823: one section *)
  Definition write_scn (w : wfile) (s : wscn) (st : wst) : outcome wst :=
    if v_index s =? 0 then (if v_flag s then UB else Ok st)
    else if v_type s =? SHT_NOBITS then Ok st
    else
      let start := f_start w + v_off s in
      match v_data s with
      | Some bs => ' (st, changed) <- write_blocks w s start bs st false ;; Ok (Wst (x_f st) (x_fill st) (x_last st) changed)
      | None =>
        ' (f, fs) <- (if (x_last st <? start) && x_prev st then fill byte (x_f st) (x_last st) (start - x_last st) (x_fill st) else Ok (x_f st, x_fill st)) ;;
        Ok (Wst f fs (start + v_size s) false)
      end.
  Fixpoint write_scns (w : wfile) (l : list wscn) (st : wst) : outcome wst :=
    match l with [] => Ok st | s :: r => st <- write_scn w s st ;; write_scns w r st end.
  (* the section header table that is collected: entry i is the header of section i *)
  Definition table (w : wfile) : bytes := concat (map (fun s => conv bo cv T_SHDR (v_img s)) (f_scns w)).
  (* flags after writing: those of the sections themselves are not cleared *)
  Definition cleared (w : wfile) : wfile :=
    Wf false false (match f_phdrs w with Some _ => if f_pdirty w || f_dirty w then false else f_pdirty w | None => f_pdirty w end) (f_eimg w) (f_ehsize w) (f_phoff w) (f_phdrs w) (f_shoff w) (f_shent w)
       (map (fun s => Ws (v_index s) (v_type s) (v_off s) (v_size s) (v_flag s) false
                         (if (v_index s =? 0) || (v_type s =? SHT_NOBITS) then v_data s else option_map (map (fun b => Wb (w_type b) (w_off b) (w_buf b) false)) (v_data s)) (v_img s)) (f_scns w)) (f_arr w) (f_start w).
  (* :511-852 __elfNN_updatefile; the buffer of fill bytes starts uninitialised ([junk]) *)
  Definition updatefile (junk : bytes) (w : wfile) (f : store) : outcome (store * wfile) :=
    let f := if f_edirty w || f_dirty w then put f 0 (conv bo cv T_EHDR (f_eimg w)) else f in
    let prev := (f_edirty w || f_dirty w) && match f_phdrs w with None => true | Some _ => false end in
    ' (f, fs, prev) <- match f_phdrs w with
      | Some ph =>
        if f_pdirty w || f_dirty w then
          ' (f, fs) <- (if f_ehsize w <? f_phoff w then fill byte f (f_ehsize w) (f_phoff w - f_ehsize w) (junk, 0) else Ok (f, (junk, 0))) ;;
          Ok (put f (f_phoff w) (conv bo cv T_PHDR ph), fs, true)
        else Ok (f, (junk, 0), prev)
      | None => Ok (f, (junk, 0), prev)
      end ;;
    let last := match f_phdrs w with None => zlen (f_eimg w) | Some ph => f_phoff w + zlen ph end in
    match f_scns w with
    | [] => Ok (f, cleared w)
    | _ =>
      let shoff := f_start w + f_shoff w in
      st <- write_scns w (sort_scns (f_scns w)) (Wst f fs last prev) ;;
      ' (f, _) <- (if f_dirty w && (x_last st <? shoff) then fill byte (x_f st) (x_last st) (shoff - x_last st) (x_fill st) else Ok (x_f st, x_fill st)) ;;
      let dirty := f_dirty w || existsb v_sflag (f_scns w) in
      f <- (if dirty then
              let t := table w in
              match f_arr w with
              | Some a => if bo || f_dirty w then Ok (put f shoff t) else if zlen a <? zlen t then UB else Ok (put f shoff (zsub a 0 (zlen t)))
              | None => Ok (put f shoff t)
              end
            else Ok f) ;;
      Ok (f, cleared w)
    end.

  (* ---------------- the mapped file ---------------- *)
  (* a write into the mapping of [max] bytes *)
  Definition mput (max : Z) (f : store) (p : Z) (b : bytes) : outcome store := if (0 <=? p) && (p + zlen b <=? max) then Ok (put f p b) else UB.
  Definition mset (max : Z) (f : store) (p n : Z) : outcome store := mput max f p (repeat byte (Z.to_nat n)).
  (* :104-124 fill_mmap; [target] is scn_start + offset *)
  Definition fill_mmap (max : Z) (f : store) (last start target shs she : Z) : outcome store :=
    ' (f, written) <- (if last <? shs then let n := Z.min (target - last) (shs - last) in f <- mset max f last n ;; Ok (f, n) else Ok (f, 0)) ;;
    if negb (last + written =? target) && (she <? target) then let p := Z.max she start in mset max f p (target - p) else Ok f.
  (* :330-392: the data of one section *)
  Fixpoint mmap_blocks (max : Z) (w : wfile) (s : wscn) (start shs she : Z) (bs : list wblk) (f : store) (last : Z) (changed : bool) : outcome (store * Z * bool) :=
    match bs with
    | [] => Ok (f, last, changed)
    | b :: r =>
      if negb ((0 <=? w_off b) && (w_off b <=? v_size s) && (zlen (w_buf b) <=? v_size s - w_off b)) then UB
      else
        let dirty := v_flag s || w_dirty b || f_dirty w in
        f <- (if (last <? start + w_off b) && ((w_off b =? 0) || dirty) then fill_mmap max f last start (start + w_off b) shs she else Ok f) ;;
        let last := start + w_off b in
        f <- (if dirty then mput max f last (conv bo cv (w_type b) (w_buf b)) else Ok f) ;;
        mmap_blocks max w s start shs she r f (last + zlen (w_buf b)) (changed || dirty)
    end.
  (* :310-409: one section *)
  Definition mmap_scn (max : Z) (w : wfile) (shs she : Z) (s : wscn) (st : store * Z * bool) : outcome (store * Z * bool) :=
    let '(f, last, prev) := st in
    if v_index s =? 0 then (if v_flag s then UB else Ok st)
    else if v_type s =? SHT_NOBITS then Ok st
    else
      let start := f_start w + v_off s in
      match v_data s with
      | Some bs => mmap_blocks max w s start shs she bs f last false
      | None => f <- (if (last <? start) && prev then fill_mmap max f last start start shs she else Ok f) ;; Ok (f, start + v_size s, false)
      end.
  Fixpoint mmap_scns (max : Z) (w : wfile) (shs she : Z) (l : list wscn) (st : store * Z * bool) : outcome (store * Z * bool) :=
    match l with [] => Ok st | s :: r => st <- mmap_scn max w shs she s st ;; mmap_scns max w shs she r st end.
  (* :420-449: the section headers, one at a time; sizeof Shdr is the length of the header in memory *)
  Fixpoint mmap_shdrs (max : Z) (w : wfile) (shs : Z) (l : list wscn) (f : store) : outcome store :=
    match l with
    | [] => Ok f
    | s :: r => f <- (if v_sflag s || f_dirty w then mput max f (shs + v_index s * zlen (v_img s)) (conv bo cv T_SHDR (v_img s)) else Ok f) ;; mmap_shdrs max w shs r f
    end.
  (* :126-465 __elfNN_updatemmap *)
  Definition updatemmap (max : Z) (w : wfile) (f : store) : outcome store :=
    let base := f_start w in
    f <- (if f_edirty w || f_dirty w then mput max f base (conv bo cv T_EHDR (f_eimg w)) else Ok f) ;;
    let prev := (f_edirty w || f_dirty w) && match f_phdrs w with None => true | Some _ => false end in
    ' (f, prev) <- match f_phdrs w with
      | Some ph =>
        if f_pdirty w || f_dirty w then
          f <- (if f_ehsize w <? f_phoff w then mset max f (base + f_ehsize w) (f_phoff w - f_ehsize w) else Ok f) ;;
          f <- mput max f (base + f_phoff w) (conv bo cv T_PHDR ph) ;; Ok (f, true)
        else Ok (f, prev)
      | None => Ok (f, prev)
      end ;;
    let last := base + Z.max (zlen (f_eimg w)) (f_phoff w) + match f_phdrs w with Some ph => zlen ph | None => 0 end in
    match f_scns w with
    | [] => Ok f
    | _ =>
      let shs := base + f_shoff w in let she := shs + zlen (f_scns w) * f_shent w in
      let ss := sort_scns (f_scns w) in
      ' (f, last, _) <- mmap_scns max w shs she ss (f, last, prev) ;;
      f <- (if f_dirty w && (last <? shs) then mset max f last (shs - last) else Ok f) ;;
      mmap_shdrs max w shs ss f
    end.
End writer.
