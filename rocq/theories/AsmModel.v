(* Model of the libasm functions that add content to a section
   (binary output, i.e. ctx->textp == 0; NULL section arguments return -1 and
   are not modelled; locking is not modelled). *)
From Verif Require Import Base LebModel.

(* libasmP.h struct AsmData: maxlen and the len bytes used so far.  malloc'ed
   memory is uninitialised: such a byte is None. *)
Record ablock := { ab_max : Z; ab_data : list (option Z) }.

(* libasmP.h struct AsmScn: type == SHT_NOBITS, offset, max_align, pattern and
   the content blocks, oldest first.  In C the blocks form a circular list and
   content points to the newest one. *)
Record ascn := {
  as_nobits : bool;
  as_offset : Z;
  as_align : Z;
  as_pattern : bytes;
  as_blocks : list ablock
}.

(* asm_newscn.c:110-130, asm_newsubscn.c:73-95: the initial state, with the
   default fill pattern (one zero byte). *)
Definition new_scn (nobits : bool) : ascn :=
  {| as_nobits := nobits; as_offset := 0; as_align := 1; as_pattern := [0]; as_blocks := [] |}.

Definition set_blocks (s : ascn) (b : list ablock) : ascn :=
  {| as_nobits := as_nobits s; as_offset := as_offset s; as_align := as_align s;
     as_pattern := as_pattern s; as_blocks := b |}.

(* ASM error codes used below. *)
Definition ASM_NOMEM := -1.      (* plain -1 *)
Definition ASM_E_INVALID := 3.
Definition ASM_E_TYPE := 8.

(* asm_align.c:131-175 __libasm_ensure_section_space; [alloc n] says whether
   malloc of a block with n data bytes succeeds. *)
Definition ensure_section_space (alloc : Z -> bool) (s : ascn) (len : Z) : outcome ascn :=
  match as_blocks s with
  | [] =>
      let size := Z.max (u64 (2 * len)) 960 in
      if alloc size then Ok (set_blocks s [{| ab_max := size; ab_data := [] |}]) else Err ASM_NOMEM
  | _ =>
      let cur := last (as_blocks s) {| ab_max := 0; ab_data := [] |} in
      if len <=? u64 (ab_max cur - zlen (ab_data cur)) then Ok s
      else
        let size := Z.max (u64 (2 * len)) (Z.min 32768 (u64 (2 * as_offset s))) in
        if alloc size
        then Ok (set_blocks s (as_blocks s ++ [{| ab_max := size; ab_data := [] |}]))
        else Err ASM_NOMEM
  end.

(* Storing at &content->data[content->len] and content->len += n,
   offset += n.  Writing past the block is UB. *)
Definition put (s : ascn) (d : list (option Z)) : outcome ascn :=
  match as_blocks s with
  | [] => UB
  | _ =>
      let cur := last (as_blocks s) {| ab_max := 0; ab_data := [] |} in
      if ab_max cur <? zlen (ab_data cur) + zlen d then UB
      else Ok {| as_nobits := as_nobits s; as_offset := u64 (as_offset s + zlen d);
                 as_align := as_align s; as_pattern := as_pattern s;
                 as_blocks := removelast (as_blocks s)
                              ++ [{| ab_max := ab_max cur; ab_data := ab_data cur ++ d |}] |}
  end.

(* asm_adduleb128.c:57-72, the loop filling tmpbuf; "uint32_t num". *)
Fixpoint uleb_tmpbuf (fuel : nat) (num : Z) : outcome bytes :=
  match fuel with
  | O => UB (* tmpbuf has (4 * 8 + 6) / 7 = 5 bytes *)
  | S f =>
      let byte := Z.land num 127 in
      let num := Z.shiftr num 7 in
      if num =? 0 then Ok [byte]
      else r <- uleb_tmpbuf f num ;; Ok (Z.lor byte 128 :: r)
  end.

(* asm_adduleb128.c:38-93. *)
Definition asm_adduleb128 (alloc : Z -> bool) (s : ascn) (num : Z) : outcome ascn :=
  if as_nobits s && negb (num =? 0) then Err ASM_E_TYPE else
  tmp <- uleb_tmpbuf 5 num ;;
  s <- ensure_section_space alloc s (zlen tmp) ;;
  put s (if as_nobits s then repeat None (length tmp) else map Some tmp).

(* asm_addsleb128.c:61-74, the loop; "int32_t num", arithmetic shift. *)
Fixpoint sleb_tmpbuf (fuel : nat) (num endval : Z) : outcome bytes :=
  match fuel with
  | O => UB
  | S f =>
      let byte := Z.land num 127 in
      let num := Z.shiftr num 7 in
      if num =? endval then Ok [byte]
      else r <- sleb_tmpbuf f num endval ;; Ok (Z.lor byte 128 :: r)
  end.

(* asm_addsleb128.c:38-97. *)
Definition asm_addsleb128 (alloc : Z -> bool) (s : ascn) (num : Z) : outcome ascn :=
  if as_nobits s && negb (num =? 0) then Err ASM_E_TYPE else
  tmp <- (if num =? 0 then Ok [0] else sleb_tmpbuf 5 num (Z.shiftr num 31)) ;;
  s <- ensure_section_space alloc s (zlen tmp) ;;
  put s (if as_nobits s then repeat None (length tmp) else map Some tmp).

(* The bytes of a native store of an n-byte integer. *)
Definition native_store (host : endian) (n : nat) (x : Z) : bytes :=
  match host with LE => le_bytes n x | BE => be_bytes n x end.

(* asm_addint8.c:53-122 FCT(SIZE), SIZE = 8 * n; [out] is the byte order of the
   output file (EI_DATA).  Lines 109-110 copy only if the type is SHT_NOBITS. *)
Definition asm_addint (host out : endian) (alloc : Z -> bool) (n : nat) (s : ascn) (num : Z)
  : outcome ascn :=
  if as_nobits s && negb (num =? 0) then Err ASM_E_TYPE else
  s <- ensure_section_space alloc s (Z.of_nat n) ;;
  let var := num mod 256 ^ Z.of_nat n in
  let swap := match host, out with LE, BE | BE, LE => true | _, _ => false end in
  let var := if swap && (1 <? Z.of_nat n) then bswap n var else var in
  put s (if as_nobits s then map Some (native_store host n var) else repeat None n).

(* asm_adduint8.c:50-54: the unsigned versions convert and call FCT(SIZE). *)
Definition asm_adduint (host out : endian) (alloc : Z -> bool) (n : nat) (s : ascn) (num : Z)
  : outcome ascn :=
  let half := 256 ^ Z.of_nat n / 2 in
  asm_addint host out alloc n s ((num + half) mod 256 ^ Z.of_nat n - half).

(* asm_addstrz.c:43-123; str is given with its length len > 0, or len = 0 and
   the bytes up to and including the terminating NUL in [strz]. *)
Definition asm_addstrz (alloc : Z -> bool) (s : ascn) (str : bytes) (len : Z) : outcome ascn :=
  let strz := if len =? 0 then (fix upto (b : bytes) :=
                                  match b with
                                  | [] => None
                                  | c :: r => if c =? 0 then Some [0]
                                              else match upto r with
                                                   | Some t => Some (c :: t) | None => None end
                                  end) str
              else if len <=? zlen str then Some (firstn (Z.to_nat len) str) else None in
  match strz with
  | None => UB
  | Some text =>
      if as_nobits s && existsb (fun c => negb (c =? 0))
                                (if len =? 0 then firstn 1 text else text)
      then Err ASM_E_TYPE else
      s <- ensure_section_space alloc s (zlen text) ;;
      put s (map Some text)
  end.

(* asm_align.c:94-103: cnt pattern bytes, starting at pattern index byteptr. *)
Fixpoint fill_bytes (cnt : nat) (pattern : bytes) (byteptr : Z) : outcome bytes :=
  match cnt with
  | O => Ok []
  | S c =>
      match znth pattern byteptr with
      | None => UB
      | Some b =>
          let byteptr := byteptr + 1 in
          let byteptr := if byteptr =? zlen pattern then 0 else byteptr in
          r <- fill_bytes c pattern byteptr ;; Ok (b :: r)
      end
  end.

Definition set_align (s : ascn) (v : Z) : ascn :=
  {| as_nobits := as_nobits s; as_offset := as_offset s; as_align := v;
     as_pattern := as_pattern s; as_blocks := as_blocks s |}.

(* asm_align.c:41-126 for a subsection 0 ("value" is 32 bits wide). *)
Definition asm_align (alloc : Z -> bool) (s : ascn) (value : Z) : outcome ascn :=
  if negb (Z.land value (u32 (value - 1)) =? 0) then Err ASM_E_INVALID else
  let rem := Z.land (as_offset s) (u32 (value - 1)) in
  s <- (if rem =? 0 then Ok s
        else
          let cnt := u64 (value - rem) in
          s' <- ensure_section_space alloc s cnt ;;
          (if zlen (as_pattern s) =? 0 then UB else
           d <- fill_bytes (Z.to_nat cnt) (as_pattern s) (as_offset s mod zlen (as_pattern s)) ;;
           put s' (map Some d))) ;;
  Ok (if as_align s <? value then set_align s value else s).

(* asm_fill.c:41-73. *)
Definition asm_fill (s : ascn) (b : option bytes) : ascn :=
  {| as_nobits := as_nobits s; as_offset := as_offset s; as_align := as_align s;
     as_pattern := match b with None => [0] | Some p => p end; as_blocks := as_blocks s |}.

(* asm_end.c:98-128, the data descriptors (d_off, d_align, bytes) created for a
   section without subsections; content points to the newest block and the
   loop starts there.  "first" is never cleared. *)
Definition rotate {A : Type} (l : list A) : list A :=
  match rev l with [] => [] | x :: r => x :: rev r end.

Fixpoint end_datas (blocks : list ablock) (align offset : Z) : list (Z * Z * list (option Z)) :=
  match blocks with
  | [] => []
  | b :: r => (offset, align, ab_data b) :: end_datas r align (offset + zlen (ab_data b))
  end.

Definition asm_end_section (s : ascn) : list (Z * Z * list (option Z)) :=
  end_datas (rotate (as_blocks s)) (as_align s) 0.
