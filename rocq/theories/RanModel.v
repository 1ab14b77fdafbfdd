(* Model of the program ranlib: src/ranlib.c handle_file, and src/arlib.c, on a host of the little byte order.
   What libelf tells of the members, one after the other, is a list: their offset, size, whether the name is the one of the index, and the names that arlib_add_symbols
   (arlib.c:208-280) finds in them.  Errors of the system (mkstemp, write, rename) are left out. *)
From Verif Require Import Base.

Record walk := Walk { w_off : Z; w_size : Z; w_index : bool; w_syms : list bytes }.
(* printf with %-*u or %-*lld for numbers that are not negative: the digits, and blanks up to the width *)
Fixpoint ud (k : nat) (v : Z) : bytes := if v <? 10 then [48 + v] else match k with O => [] | S k => ud k (v / 10) ++ [48 + v mod 10] end.
Definition pr (w : nat) (v : Z) : bytes := let d := ud 20 v in d ++ repeat 32 (w - length d).
Definition even (n : Z) : Z := (n + 1) / 2 * 2.
Definition ARMAG : bytes := [33; 60; 97; 114; 99; 104; 62; 10].

(* ranlib.c:170-198 the loop over the members, with arlib.c:194-206 arlib_add_symref and 212-215; None: the archive is too large.  cur is cur_off; ix is index_off and index_size *)
Fixpoint collect (l : list walk) (cur : Z) (ix : option (Z * Z)) (offs : list Z) (names : bytes) : option (option (Z * Z) * list Z * bytes) :=
  match l with
  | [] => Some (ix, offs, names)
  | w :: r =>
      if w_index w then collect r cur (Some (w_off w, w_size w)) offs names
      else if 2 ^ 32 - 1 <? cur then None
      else collect r (cur + (even (w_size w) + 60)) ix (offs ++ map (fun _ => u32 cur) (w_syms w)) (names ++ concat (map (fun s => s ++ [0]) (w_syms w)))
  end.
(* arlib.c:139-145 *)
Definition names_end (names : bytes) : bytes := if zlen names mod 2 =? 0 then names else names ++ [0].
(* arlib.c:126 symsofflen: the header, the number and the offsets *)
Definition offs_len (offs : list Z) : Z := 60 + 4 + 4 * zlen offs.
(* arlib.c:148-152; there are no long names in ranlib *)
Definition disp (offs : list Z) (names : bytes) : Z := if 0 <? zlen (names_end names) then offs_len offs + zlen (names_end names) else 0.
(* arlib.c:56-79 the header, 175-180 its size *)
Definition ar_hdr (date size : Z) : bytes :=
  (47 :: repeat 32 15) ++ pr 12 date ++ (48 :: repeat 32 5) ++ (48 :: repeat 32 5) ++ (48 :: repeat 32 7) ++ pr 10 size ++ [96; 10].
(* arlib.c:126-137, 154-165: what is at symsoff *)
Definition symsoff (date : Z) (offs : list Z) (names : bytes) : bytes :=
  ar_hdr date (u32 (offs_len offs + zlen (names_end names) - 60)) ++ be_bytes 4 (u32 ((offs_len offs - 60) / 4 - 1)) ++
  concat (map (fun v => be_bytes 4 (if disp offs names =? 0 then v else u32 (v + disp offs names))) offs).
(* ranlib.c:200-268 *)
Inductive rres := Rsame | Rnew (b : bytes) | Rlarge | Rfail.
Definition ranlib (file : bytes) (l : list walk) (date : Z) : rres :=
  match collect l 8 None [] [] with
  | None => Rlarge
  | Some (ix, offs, names) =>
      let nm := names_end names in
      if (zlen nm =? 0) && (match ix with Some (_, s) => s =? 0 | None => true end) then Rsame
      else
        let rest_off := match ix with Some (o, s) => o + 60 + even s | None => 8 end in
        if zlen file <? rest_off then Rfail
        else Rnew (ARMAG ++ (if zlen nm =? 0 then [] else symsoff date offs names ++ nm) ++
                   (match ix with Some (o, _) => if 8 <? o then zsub file 8 (o - 8) else [] | None => [] end) ++
                   zsub file rest_off (zlen file - rest_off))
  end.
