(* Model of libdw/memory-access.h: LEB128 decoding and unaligned reads.
   A pointer is an offset into [mem], the bytes of the memory object; a read
   outside the object is UB. *)
From Verif Require Import Base.

(* memory-access.h:40 len_leb128 for a 64-bit variable. *)
Definition len_leb128_64 : Z := (8 * 8 + 6) / 7.

(* memory-access.h:42-48 __libdw_max_len_leb128. *)
Definition max_len_leb128 (type_len addr end_ : Z) : Z :=
  let pointer_len := if addr <? end_ then end_ - addr else 0 in
  if type_len <=? pointer_len then type_len else pointer_len.

(* memory-access.h:50-55 __libdw_max_len_uleb128. *)
Definition max_len_uleb128 (addr end_ : Z) : Z :=
  max_len_leb128 len_leb128_64 addr end_.

(* memory-access.h:57-63 __libdw_max_len_sleb128. *)
Definition max_len_sleb128 (addr end_ : Z) : Z :=
  max_len_leb128 (len_leb128_64 - 1) addr end_.

Definition UINT64_MAX : Z := two64 - 1.
Definition INT64_MAX : Z := two63 - 1.

(* memory-access.h:65-71 get_uleb128_step: [inl] is the early return, [inr]
   the accumulator with which the loop goes on.  The cursor is advanced in
   both cases. *)
Definition uleb_step (mem : bytes) (acc pos nth : Z) : outcome ((Z + Z) * Z) :=
  match znth mem pos with
  | None => UB
  | Some b =>
      let acc' := Z.lor acc (u64 (Z.shiftl (Z.land b 127) (nth * 7))) in
      if Z.land b 128 =? 0 then Ok (inl acc', pos + 1) else Ok (inr acc', pos + 1)
  end.

(* memory-access.h:83-87, the loop "for (i; i < max; ++i)" with n = max - i. *)
Fixpoint uleb_loop (mem : bytes) (n : nat) (acc pos i : Z) : outcome (Z * Z) :=
  match n with
  | O => Ok (UINT64_MAX, pos)
  | S n' =>
      '(r, pos') <- uleb_step mem acc pos i ;;
      match r with
      | inl v => Ok (v, pos')
      | inr acc' => uleb_loop mem n' acc' pos' (i + 1)
      end
  end.

(* memory-access.h:73-88 __libdw_get_uleb128: value and new cursor. *)
Definition get_uleb128 (mem : bytes) (pos end_ : Z) : outcome (Z * Z) :=
  '(r, pos') <- uleb_step mem 0 pos 0 ;;
  match r with
  | inl v => Ok (v, pos')
  | inr acc' =>
      uleb_loop mem (Z.to_nat (max_len_uleb128 (pos' - 1) end_ - 1)) acc' pos' 1
  end.

(* memory-access.h:90-105 __libdw_get_uleb128_unchecked. *)
Definition get_uleb128_unchecked (mem : bytes) (pos : Z) : outcome (Z * Z) :=
  '(r, pos') <- uleb_step mem 0 pos 0 ;;
  match r with
  | inl v => Ok (v, pos')
  | inr acc' => uleb_loop mem (Z.to_nat (len_leb128_64 - 1)) acc' pos' 1
  end.

(* memory-access.h:118 the bit-field "signed int i:7" initialised with __b. *)
Definition sext7 (b : Z) : Z := (b + 64) mod 128 - 64.

(* memory-access.h:113-123 get_sleb128_step.  The accumulator is the (signed)
   value of the int64_t; the or-ed and multiplied parts are reduced to int64_t. *)
Definition sleb_step (mem : bytes) (acc pos nth : Z) : outcome ((Z + Z) * Z) :=
  match znth mem pos with
  | None => UB
  | Some b =>
      if Z.land b 128 =? 0
      then Ok (inl (Z.lor acc (s64 (sext7 b * Z.shiftl 1 (nth * 7)))), pos + 1)
      else Ok (inr (Z.lor acc (s64 (Z.shiftl (Z.land b 127) (nth * 7)))), pos + 1)
  end.

(* memory-access.h:135-139. *)
Fixpoint sleb_loop (mem : bytes) (n : nat) (acc pos i : Z) : outcome (Z * Z) :=
  match n with
  | O => Ok (INT64_MAX, pos)
  | S n' =>
      '(r, pos') <- sleb_step mem acc pos i ;;
      match r with
      | inl v => Ok (v, pos')
      | inr acc' => sleb_loop mem n' acc' pos' (i + 1)
      end
  end.

(* memory-access.h:125-140 __libdw_get_sleb128. *)
Definition get_sleb128 (mem : bytes) (pos end_ : Z) : outcome (Z * Z) :=
  '(r, pos') <- sleb_step mem 0 pos 0 ;;
  match r with
  | inl v => Ok (v, pos')
  | inr acc' =>
      sleb_loop mem (Z.to_nat (max_len_sleb128 (pos' - 1) end_ - 1)) acc' pos' 1
  end.

(* memory-access.h:142-158 __libdw_get_sleb128_unchecked. *)
Definition get_sleb128_unchecked (mem : bytes) (pos : Z) : outcome (Z * Z) :=
  '(r, pos') <- sleb_step mem 0 pos 0 ;;
  match r with
  | inl v => Ok (v, pos')
  | inr acc' => sleb_loop mem (Z.to_nat (len_leb128_64 - 1 - 1)) acc' pos' 1
  end.

(* ------------------------------------------------------------------ *)
(* Unaligned fixed-width reads.  The host byte order is a parameter. *)
Inductive endian := LE | BE.

(* A native load of the bytes b on a host of the given byte order. *)
Definition native_load (host : endian) (b : bytes) : Z :=
  match host with LE => le_value b | BE => be_value b end.

(* bswap_16/32/64 of <byteswap.h> for n = 2, 4, 8 bytes. *)
Definition bswap (n : nat) (x : Z) : Z := be_value (le_bytes n x).

(* Reading n bytes of the object, UB outside. *)
Definition read_bytes (mem : bytes) (pos n : Z) : outcome bytes :=
  if (0 <=? pos) && (pos + n <=? zlen mem) then Ok (zsub mem pos n) else UB.

(* memory-access.h:168-171, 179-182, 190-193 read_{2,4,8}ubyte_unaligned
   (both ALLOW_UNALIGNED variants compute the same). *)
Definition read_ubyte (host : endian) (other_byte_order : bool) (n : nat)
  (mem : bytes) (pos : Z) : outcome Z :=
  b <- read_bytes mem pos (Z.of_nat n) ;;
  let v := native_load host b in
  Ok (if other_byte_order then bswap n v else v).

Definition read_2ubyte_unaligned host obo mem pos := read_ubyte host obo 2 mem pos.
Definition read_4ubyte_unaligned host obo mem pos := read_ubyte host obo 4 mem pos.
Definition read_8ubyte_unaligned host obo mem pos := read_ubyte host obo 8 mem pos.

(* memory-access.h:172-175, 183-186, 194-197 read_{2,4,8}sbyte_unaligned. *)
Definition read_2sbyte_unaligned host obo mem pos :=
  v <- read_2ubyte_unaligned host obo mem pos ;; Ok (s16 v).
Definition read_4sbyte_unaligned host obo mem pos :=
  v <- read_4ubyte_unaligned host obo mem pos ;; Ok (s32 v).
Definition read_8sbyte_unaligned host obo mem pos :=
  v <- read_8ubyte_unaligned host obo mem pos ;; Ok (s64 v).

(* memory-access.h:323-331 file_byte_order. *)
Definition file_byte_order (host : endian) (other_byte_order : bool) : endian :=
  match host with
  | LE => if other_byte_order then BE else LE
  | BE => if other_byte_order then LE else BE
  end.

(* memory-access.h:333-362 read_3ubyte_unaligned. *)
Definition read_3ubyte_unaligned (host : endian) (obo : bool) (mem : bytes) (pos : Z) : outcome Z :=
  p <- read_bytes mem pos 3 ;;
  let c := match file_byte_order host obo with
           | BE => 0 :: p
           | LE => p ++ [0]
           end in
  let u4 := native_load host c in
  Ok (if obo then bswap 4 u4 else u4).

(* memory-access.h:291-316 the cursor-advancing forms for 2, 4 and 8 bytes. *)
Definition read_2ubyte_unaligned_inc host obo mem pos :=
  v <- read_2ubyte_unaligned host obo mem pos ;; Ok (v, pos + 2).
Definition read_4ubyte_unaligned_inc host obo mem pos :=
  v <- read_4ubyte_unaligned host obo mem pos ;; Ok (v, pos + 4).
Definition read_8ubyte_unaligned_inc host obo mem pos :=
  v <- read_8ubyte_unaligned host obo mem pos ;; Ok (v, pos + 8).
Definition read_2sbyte_unaligned_inc host obo mem pos :=
  v <- read_2sbyte_unaligned host obo mem pos ;; Ok (v, pos + 2).
Definition read_4sbyte_unaligned_inc host obo mem pos :=
  v <- read_4sbyte_unaligned host obo mem pos ;; Ok (v, pos + 4).
Definition read_8sbyte_unaligned_inc host obo mem pos :=
  v <- read_8sbyte_unaligned host obo mem pos ;; Ok (v, pos + 8).

(* memory-access.h:365-368 read_3ubyte_unaligned_inc: it reads with
   read_2ubyte_unaligned and then moves the cursor by 3. *)
Definition read_3ubyte_unaligned_inc host obo mem pos :=
  v <- read_2ubyte_unaligned host obo mem pos ;; Ok (v, pos + 3).

(* memory-access.h:370-373 read_addr_unaligned_inc (the assert is UB here). *)
Definition read_addr_unaligned_inc (nbytes : Z) host obo mem pos :=
  if nbytes =? 4 then read_4ubyte_unaligned_inc host obo mem pos
  else if nbytes =? 8 then read_8ubyte_unaligned_inc host obo mem pos
  else UB.
