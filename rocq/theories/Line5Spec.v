(* The directory and file tables of version 5 headers (DWARF 5, 6.2.4 and 6.2.4.1). *)
From Verif Require Import Base LebSpec Slice CfiSpec FormSpec LineSpec.

(* The forms a vendor-defined content type may have (6.2.4.2), which libdw requires of all. *)
Definition user_forms : list Z := [9; 10; 3; 4; 11; 5; 6; 7; 30; 12; 31; 13; 23; 8; 14; 29; 26; 37; 38; 39; 40; 15].
(* The entry format: pairs of content type and form *)
Inductive columns : list (Z * Z) -> bytes -> Prop :=
  | C_nil : columns [] []
  | C_cons : forall t f l xt xf b, uleb_of t xt -> uleb_of f xf -> t < 65536 -> In f user_forms -> columns l b -> columns ((t, f) :: l) (xt ++ xf ++ b).
(* The string of a value: inline, in .debug_str, in .debug_line_str *)
Inductive spells (str lstr : option bytes) : Z -> value -> bytes -> Prop :=
  | Sp_inline : forall s, text s -> spells str lstr 8 (Text s) s
  | Sp_strp : forall d o s, str = Some d -> text s -> at_ d o (s ++ [0]) -> spells str lstr 14 (Unsigned o) s
  | Sp_line_strp : forall d o s, lstr = Some d -> text s -> at_ d o (s ++ [0]) -> spells str lstr 31 (Unsigned o) s.
(* The bytes of an entry: the path (DW_LNCT_path 1) and the directory (DW_LNCT_directory_index
   2: data1, data2 or udata), each given once, and other values *)
Inductive entry (m : FormSpec.params) (str lstr : option bytes) : list (Z * Z) -> bytes -> option bytes -> option Z -> Prop :=
  | E_nil : entry m str lstr [] [] None None
  | E_path : forall f l v b c s d, holds m f v b -> spells str lstr f v s -> entry m str lstr l c None d -> entry m str lstr ((1, f) :: l) (b ++ c) (Some s) d
  | E_dir : forall f l n b c s, holds m f (Unsigned n) b -> In f [11; 5; 15] -> entry m str lstr l c s None -> entry m str lstr ((2, f) :: l) (b ++ c) s (Some n)
  | E_other : forall t f l v b c s d, t <> 1 -> t <> 2 -> holds m f v b -> entry m str lstr l c s d -> entry m str lstr ((t, f) :: l) (b ++ c) s d.
Inductive tables_new (m : FormSpec.params) (str lstr : option bytes) (dirs : list bytes) (files : list source) : bytes -> Prop :=
  | T_new : forall dc fc x y nx ny db fb, columns dc x -> columns fc y -> zlen dc < 256 -> zlen fc < 256 -> uleb_of (zlen dirs) nx -> uleb_of (zlen files) ny ->
      (dc = [] -> dirs = []) -> (fc = [] -> files = []) -> In 1 (map fst dc) \/ dc = [] -> In 1 (map fst fc) /\ In 2 (map fst fc) \/ fc = [] ->
      Forall2 (fun s b => exists d, entry m str lstr dc b (Some s) d) dirs db -> Forall2 (fun f b => entry m str lstr fc b (Some (name f)) (Some (dir f))) files fb ->
      tables_new m str lstr dirs files ([zlen dc] ++ x ++ nx ++ concat db ++ [zlen fc] ++ y ++ ny ++ concat fb).
