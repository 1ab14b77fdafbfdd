(* libdwfl/find-debuginfo.c, libdwfl/dwfl_build_id_find_elf.c (the search by build ID) and
   libdwfl/dwfl_build_id_find_debuginfo.c, with what libdwfl/open.c does with the descriptor.

   Simplifications: memory is never short; the files do not change during the search; realpath
   gives a name of a found file itself. *)
From Verif Require Import Base CrcModel.

(* what __libdw_open_file finds: no ELF file, one, or one that has to be decompressed *)
Inductive kind := KNone | KPlain | KPacked.
(* a file: whether it is the main file (st_dev and st_ino), its kind, what crc32_file gives
   (None: an error) and the build ID that is found in it *)
Record file := File { f_main : bool; f_kind : kind; f_crc : option Z; f_id : option bytes }.
Inductive answer := Fail (errno : Z) | Opened (f : file).
Definition ENOENT : Z := 2.
Definition ENOTDIR : Z := 20.
(* what happens to descriptors *)
Inductive event := EOpen (n : bytes) | EClose (n : bytes).
(* nothing, with errno; or a file, and whether the descriptor that is given back is open *)
Inductive result := NotFound (errno : Z) | Found (n : bytes) (f : file) (fd : bool).
(* the module: mod->dw and the build ID in its link to the alternate file, if it has one; the build
   ID of the module (build_id_len > 0) *)
Record modl := Modl { m_dw : option (option bytes); m_id : option bytes }.

Definition SLASH : Z := 47.
Definition COLON : Z := 58.
(* strsep (&path, ":") until it gives NULL *)
Fixpoint split_colon (cur s : bytes) : list bytes :=
  match s with
  | [] => [cur]
  | c :: s => if c =? COLON then cur :: split_colon [] s else split_colon (cur ++ [c]) s
  end.
(* strchr (s, '/') + 1, None for NULL *)
Fixpoint after_slash (s : bytes) : option bytes :=
  match s with [] => None | c :: s => if c =? SLASH then Some s else after_slash s end.
(* basename (s) of the GNU library: what is behind the last '/' *)
Fixpoint basename (fuel : nat) (s : bytes) : bytes :=
  match fuel with O => s | S fuel => match after_slash s with None => s | Some r => basename fuel r end end.
Definition base_of (s : bytes) : bytes := basename (length s) s.

(* find-debuginfo.c:52-59 *)
Definition join (dir subdir : option bytes) (link : bytes) : bytes :=
  match dir, subdir with
  | None, None => link
  | Some d, None => d ++ [SLASH] ++ link
  | None, Some s => s ++ [SLASH] ++ link
  | Some d, Some s => d ++ [SLASH] ++ s ++ [SLASH] ++ link
  end.
(* find-debuginfo.c:43-79: the events, and the file with its name or errno *)
Definition try_open (fs : bytes -> answer) (dir subdir : option bytes) (link : bytes) : list event * (Z + bytes * file) :=
  let n := join dir subdir link in
  match fs n with
  | Fail e => ([], inl e)
  | Opened f => if f_main f then ([EOpen n; EClose n], inl ENOENT) else ([EOpen n], inr (n, f))
  end.
(* find-debuginfo.c:90-156: the events, whether the file is right, and whether the descriptor is
   still open.  A file that is decompressed has its descriptor closed (open.c:157-162) *)
Definition has_id (f : file) (id : bytes) : bool := match f_id f with Some i => beq i id | None => false end.
Definition by_id (n : bytes) (f : file) (id : bytes) : list event * bool * bool :=
  match f_kind f with
  | KNone => ([], false, true)
  | KPlain => if has_id f id then ([], true, true) else ([EClose n], false, false)
  | KPacked => if has_id f id then ([EClose n], true, false) else ([EClose n], false, false)
  end.
Definition validate (m : modl) (n : bytes) (f : file) (check : bool) (crc : Z) : list event * bool * bool :=
  match m_dw m with
  | Some None => ([], false, true)
  | Some (Some id) => by_id n f id
  | None =>
    match m_id m with
    | Some id => by_id n f id
    | None => ([], negb check || match f_crc f with Some c => c =? crc | None => false end, true)
    end
  end.

(* one element of the path: on to the next, stop with errno, or the file *)
Inductive step := Next | Stop (errno : Z) | Done (n : bytes) (f : file) (fd : bool).
Definition absent (e : Z) : bool := (e =? ENOENT) || (e =? ENOTDIR).
(* find-debuginfo.c:328-339 *)
Definition accept (m : modl) (check : bool) (crc : Z) (ev : list event) (n : bytes) (f : file) : list event * step :=
  let '(ev', ok, fd) := validate m n f check crc in
  if ok then (ev ++ ev', Done n f fd) else (ev ++ ev' ++ [EClose n], Next).
Definition dwz : bytes := [46; 100; 119; 122].
Definition is_some {A : Type} (o : option A) : bool := match o with Some _ => true | None => false end.
(* find-debuginfo.c:295-339 and the label explore_dir (271-279): dir, subdir, file and
   try_file_basename; special: p is empty or absolute *)
Fixpoint attempt (fuel : nat) (fs : bytes -> answer) (m : modl) (link : bytes) (linknull : bool) (base : bytes) (check : bool) (crc : Z) (special : bool)
    (dir subdir : option bytes) (file : bytes) (trybase : bool) : outcome (list event * step) :=
  match fuel with
  | O => Fuel
  | S fuel =>
    let '(ev, r) := try_open fs dir subdir file in
    let '(ev, r) := match r with
                    | inl _ => if trybase then let '(ev', r') := try_open fs dir subdir base in (ev ++ ev', r') else (ev, r)
                    | inr _ => (ev, r)
                    end in
    match r with
    | inr (n, f) => Ok (accept m check crc ev n f)
    | inl e =>
      if absent e then
        if is_some (m_dw m) && special then
          let '(ev', r) := try_open fs dir (Some dwz) (base_of file) in
          match r with
          | inl e => Ok (ev ++ ev', if absent e then Next else Stop e)
          | inr (n, f) => Ok (accept m check crc (ev ++ ev') n f)
          end
        else match (if is_some (m_dw m) then None else subdir) with
             | None => Ok (ev, Next)
             | Some s =>
               match after_slash s with
               | Some [] => Ok (ev, Next)
               | sub => ' (ev', r) <- attempt fuel fs m link linknull base check crc special dir sub link linknull ;; Ok (ev ++ ev', r)
               end
             end
      else Ok (ev, Stop e)
    end
  end.
(* find-debuginfo.c:235-294: one element p of the path *)
Definition PLUS : Z := 43.
Definition MINUS : Z := 45.
Definition element (fs : bytes -> answer) (m : modl) (dirname : option bytes) (link : bytes) (linknull : bool) (base : bytes) (defcheck cancheck : bool) (crc : Z) (p : bytes) : outcome (list event * step) :=
  let '(check, p) := match p with
                     | c :: r => if (c =? PLUS) || (c =? MINUS) then (c =? PLUS, r) else (defcheck, p)
                     | [] => (defcheck, p)
                     end in
  let check := check && cancheck in
  let go := fun special dir subdir file trybase => attempt (match subdir with Some s => S (S (length s)) | None => 1 end) fs m link linknull base check crc special dir subdir file trybase in
  match p with
  | [] => go true dirname None link false
  | c :: _ =>
    if c =? SLASH then
      match m_dw m with
      | None =>
        match dirname with
        | Some (d :: dn) =>
          if d =? SLASH then
            match after_slash (d :: dn) with
            | Some [] => Ok ([], Next)
            | sub => go true (Some p) sub link linknull
            end
          else Ok ([], Next)
        | _ => Ok ([], Next)
        end
      | Some _ => go true (Some p) None (base_of link) linknull
      end
    else go false dirname (Some p) link linknull
  end.
(* find-debuginfo.c:233-344: the elements one after the other *)
Fixpoint elements (fs : bytes -> answer) (m : modl) (dirname : option bytes) (link : bytes) (linknull : bool) (base : bytes) (defcheck cancheck : bool) (crc : Z) (ps : list bytes) : outcome (list event * result) :=
  match ps with
  | [] => Ok ([], NotFound 0)
  | p :: ps =>
    ' (ev, s) <- element fs m dirname link linknull base defcheck cancheck crc p ;;
    match s with
    | Done n f fd => Ok (ev, Found n f fd)
    | Stop e => Ok (ev, NotFound e)
    | Next => ' (ev', r) <- elements fs m dirname link linknull base defcheck cancheck crc ps ;; Ok (ev ++ ev', r)
    end
  end.
Definition dot_debug : bytes := [46; 100; 101; 98; 117; 103].
(* find-debuginfo.c:158-351 *)
Definition find_in_path (fs : bytes -> answer) (m : modl) (path : bytes) (file_name link : option bytes) (crc : Z) : outcome (list event * result) :=
  let base := option_map base_of file_name in
  (* the directory: everything before the last '/', if there is one *)
  let dirname := match file_name with
                 | Some n => if zlen (base_of n) =? zlen n then None else Some (firstn (length n - length (base_of n) - 1) n)
                 | None => None
                 end in
  let '(defcheck, p) := match path with
                        | c :: r => if (c =? MINUS) || (c =? PLUS) then (c =? PLUS, r) else (true, path)
                        | [] => (true, path)
                        end in
  match link with
  | None =>
    match base with
    | None => Ok ([], NotFound 0)
    | Some b => if is_some (m_dw m) then Ok ([], NotFound 0)
                else elements fs m dirname (b ++ dot_debug) true b defcheck false crc (split_colon [] p)
    end
  | Some l => elements fs m dirname l false (match base with Some b => b | None => [] end) defcheck (negb (crc =? 0)) crc (split_colon [] p)
  end.

(* dwfl_build_id_find_elf.c:54-71: the name of a file by its build ID, in a buffer of 147 bytes *)
Definition buf_size : Z := 147.
Definition put (buf : bytes) (pos : Z) (s : bytes) : outcome bytes :=
  if (0 <=? pos) && (pos + zlen s <=? zlen buf) then Ok (firstn (Z.to_nat pos) buf ++ s ++ skipn (Z.to_nat pos + length s) buf) else UB.
Definition hex1 (d : Z) : Z := if d <? 10 then 48 + d else 87 + d.
Definition hex2 (b : Z) : bytes := [hex1 (b / 16); hex1 (b mod 16)].
Definition build_id_dir : bytes := [47; 46; 98; 117; 105; 108; 100; 45; 105; 100; 47].
Fixpoint put_bytes (buf : bytes) (i : Z) (id : bytes) : outcome bytes :=
  match id with
  | [] => Ok buf
  | b :: id => buf <- put buf (11 + 3 + (i - 1) * 2) (hex2 b ++ [0]) ;; put_bytes buf (i + 1) id
  end.
Definition id_name (garbage : bytes) (debug : bool) (id : bytes) : outcome bytes :=
  buf <- put garbage 0 (build_id_dir ++ [0]) ;;
  match id with
  | [] => UB
  | b :: rest =>
    buf <- put buf 11 (hex2 b ++ [SLASH; 0]) ;;
    buf <- put_bytes buf 1 rest ;;
    if debug then put buf (11 + 3 + (zlen id - 1) * 2) (dot_debug ++ [0]) else Ok buf
  end.
(* the string in a buffer *)
Fixpoint string_of (b : bytes) : bytes := match b with [] => [] | c :: b => if c =? 0 then [] else c :: string_of b end.
(* dwfl_build_id_find_elf.c:80-108: the elements of the path; errno *)
Fixpoint by_dirs (fs : bytes -> answer) (name : bytes) (ps : list bytes) (errno : Z) : list event * option (bytes * file) * Z :=
  match ps with
  | [] => ([], None, errno)
  | p :: ps =>
    let dir := match p with c :: r => if (c =? PLUS) || (c =? MINUS) then r else p | [] => p end in
    match dir with
    | c :: _ =>
      if c =? SLASH then
        match fs (dir ++ name) with
        | Opened f => ([EOpen (dir ++ name)], Some (dir ++ name, f), errno)
        | Fail e => by_dirs fs name ps e
        end
      else by_dirs fs name ps errno
    | [] => by_dirs fs name ps errno
    end
  end.
(* dwfl_build_id_find_elf.c:40-120; garbage: what the buffer has at first *)
Definition open_by_id (fs : bytes -> answer) (path garbage : bytes) (debug : bool) (id : bytes) (errno : Z) : outcome (list event * option (bytes * file) * Z) :=
  if (zlen id <? 3) || (64 <? zlen id) then Ok ([], None, errno)
  else
    buf <- id_name garbage debug id ;;
    let '(ev, r, e) := by_dirs fs (string_of buf) (split_colon [] path) errno in
    Ok (ev, r, match r with None => if e =? ENOENT then 0 else e | Some _ => e end).
(* dwfl_build_id_find_debuginfo.c:37-134 with mod->dw NULL, or with the alternate file.  errno: what it
   is before; errno': what it is after a file that is no ELF file *)
Definition by_build_id (fs : bytes -> answer) (m : modl) (path garbage : bytes) (errno errno' : Z) : outcome (list event * result) :=
  match m_dw m with
  | Some None => Ok ([], NotFound errno)
  | Some (Some id) =>
    ' (ev, r, e) <- open_by_id fs path garbage true id errno ;;
    match r with
    | None => Ok (ev, NotFound e)
    | Some (n, f) =>
      match f_kind f with
      | KNone => Ok (ev ++ [EClose n], NotFound errno')
      | KPlain => if has_id f id then Ok (ev, Found n f true) else Ok (ev ++ [EClose n], NotFound 0)
      | KPacked => if has_id f id then Ok (ev ++ [EClose n], Found n f false) else Ok (ev ++ [EClose n], NotFound 0)
      end
    end
  | None =>
    match m_id m with
    | None => Ok ([], NotFound errno)
    | Some id =>
      ' (ev, r, e) <- open_by_id fs path garbage true id 0 ;;
      match r with
      | None => Ok (ev, NotFound e)
      | Some (n, f) =>
        match f_kind f with
        | KNone => Ok (ev ++ [EClose n], NotFound 0)
        | KPlain => if has_id f id then Ok (ev, Found n f true) else Ok (ev ++ [EClose n], NotFound 0)
        | KPacked => if has_id f id then Ok (ev ++ [EClose n], Found n f false) else Ok (ev ++ [EClose n], NotFound 0)
        end
      end
    end
  end.
(* find-debuginfo.c:353-407; canon: what realpath gives for file_name *)
Definition standard_find (fs : bytes -> answer) (m : modl) (path garbage : bytes) (errno errno' : Z) (file_name canon link : option bytes) (crc : Z) : outcome (list event * result) :=
  ' (ev1, r1) <- (match m_id m with Some _ => by_build_id fs m path garbage errno errno' | None => Ok ([], NotFound 0) end) ;;
  match r1 with
  | Found _ _ _ => Ok (ev1, r1)
  | NotFound e =>
    if negb (e =? 0) then Ok (ev1, r1)
    else
      ' (ev2, r2) <- find_in_path fs m path file_name link crc ;;
      match r2, file_name, canon with
      | NotFound 0, Some n, Some c =>
        if beq n c then Ok (ev1 ++ ev2, r2)
        else ' (ev3, r3) <- find_in_path fs m path (Some c) link crc ;; Ok (ev1 ++ ev2 ++ ev3, r3)
      | _, _, _ => Ok (ev1 ++ ev2, r2)
      end
  end.
