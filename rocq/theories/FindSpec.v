(* Which files are looked at in the search for a separate debug file, in which order, and which
   one is right. *)
From Verif Require Import Base CrcModel FindModel.

(* is this the file that belongs to the module? *)
Definition right (m : modl) (f : file) (check : bool) (crc : Z) : Prop :=
  match m_dw m, m_id m with
  | Some None, _ => False
  | Some (Some id), _ | None, Some id => f_kind f <> KNone /\ f_id f = Some id
  | None, None => check = true -> f_crc f = Some crc
  end.
(* what is behind each of the slashes, from the whole on, and then nothing *)
Fixpoint tails (s : bytes) : list (option bytes) :=
  match s with
  | [] => [None]
  | c :: r => if c =? SLASH then match r with [] => [] | _ => Some r :: tails r end else tails r
  end.
(* the names to try for an element of the path; those in one list stand for one another *)
Definition names (link : bytes) (linknull : bool) (base : bytes) (dir sub : option bytes) : list bytes :=
  join dir sub link :: if linknull then [join dir sub base] else [].
Definition groups (dw : bool) (dirname : option bytes) (link : bytes) (linknull : bool) (base p : bytes) : list (list bytes) :=
  match p with
  | [] => [join dirname None link] :: if dw then [[join dirname (Some dwz) (base_of link)]] else []
  | c :: _ =>
    if c =? SLASH then
      if dw then [names (base_of link) linknull base (Some p) None; [join (Some p) (Some dwz) (base_of (base_of link))]]
      else match dirname with
           | Some (d :: dn) => if d =? SLASH then map (names link linknull base (Some p)) (tails (d :: dn)) else []
           | _ => []
           end
    else names link linknull base dirname (Some p) :: if dw then [] else map (names link linknull base dirname) (tails p)
  end.
(* the first of these names that is a file and not the main file; else the error of the last *)
Fixpoint look (fs : bytes -> answer) (e : Z) (ns : list bytes) : Z + bytes * file :=
  match ns with
  | [] => inl e
  | n :: ns => match fs n with
               | Opened f => if f_main f then look fs ENOENT ns else inr (n, f)
               | Fail e => look fs e ns
               end
  end.
(* a search ends with nothing and errno, or with a file *)
Inductive ending := SNone (errno : Z) | SFile (n : bytes) (f : file).
(* in one element: the first file there is decides; errors other than that there is none end all *)
Inductive walk (fs : bytes -> answer) (m : modl) (check : bool) (crc : Z) : list (list bytes) -> option ending -> Prop :=
| WEnd : walk fs m check crc [] None
| WSkip : forall g gs e r, look fs ENOENT g = inl e -> (e = ENOENT \/ e = ENOTDIR) -> walk fs m check crc gs r -> walk fs m check crc (g :: gs) r
| WError : forall g gs e, look fs ENOENT g = inl e -> e <> ENOENT -> e <> ENOTDIR -> walk fs m check crc (g :: gs) (Some (SNone e))
| WRight : forall g gs n f, look fs ENOENT g = inr (n, f) -> right m f check crc -> walk fs m check crc (g :: gs) (Some (SFile n f))
| WWrong : forall g gs n f, look fs ENOENT g = inr (n, f) -> ~ right m f check crc -> walk fs m check crc (g :: gs) None.
(* a sign in front says whether checksums are compared *)
Definition signed (def : bool) (p : bytes) : bool * bytes :=
  match p with
  | c :: r => if (c =? PLUS) || (c =? MINUS) then (c =? PLUS, r) else (def, p)
  | [] => (def, p)
  end.
(* the elements one after the other *)
Inductive search (fs : bytes -> answer) (m : modl) (crc : Z) (can def : bool) (gr : bytes -> list (list bytes)) : list bytes -> ending -> Prop :=
| SEnd : search fs m crc can def gr [] (SNone 0)
| SNext : forall p ps r, walk fs m (fst (signed def p) && can) crc (gr (snd (signed def p))) None -> search fs m crc can def gr ps r -> search fs m crc can def gr (p :: ps) r
| SHere : forall p ps r, walk fs m (fst (signed def p) && can) crc (gr (snd (signed def p))) (Some r) -> search fs m crc can def gr (p :: ps) r.
Definition same (r : result) (s : ending) : Prop := match r with NotFound e => s = SNone e | Found n f _ => s = SFile n f end.
