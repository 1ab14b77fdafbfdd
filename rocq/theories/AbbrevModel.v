(* Model of abbreviation declarations and of the entries using them: libdw/dwarf_getabbrev.c,
   dwarf_tag.c, dwarf_hasattr.c, dwarf_getabbrevattr.c, dwarf_getattrcnt.c, dwarf_getattrs.c,
   dwarf_child.c, dwarf_siblingof.c, dwarf_attr.c, dwarf_haschildren.c.
   A pointer into .debug_abbrev is an offset into its bytes, a pointer into the unit's section
   an offset into u_mem; reading outside is UB. *)
From Verif Require Import Base LebModel DwModel FormModel.

(* libdwP.h:241-248 struct Dwarf_Abbrev; the member code has 31 bits *)
Record abbrev := Abbrev { ab_code : Z; ab_tag : Z; ab_children : bool; ab_attrp : Z; ab_offset : Z }.

(* dwarf_getabbrev.c:119-141: walk over the attribute specifications; the end of the walk. *)
Fixpoint check_attrs (fuel : nat) (dm : bytes) (p : Z) : outcome Z :=
  match fuel with
  | O => Fuel
  | S k =>
    let end_ := zlen dm in
    if end_ <=? p then Err DWARF_E_INVALID_DWARF else
    ' (n, p1) <- get_uleb128 dm p end_ ;;
    if end_ <=? p1 then Err DWARF_E_INVALID_DWARF else
    ' (f, p2) <- get_uleb128 dm p1 end_ ;;
    p3 <- (if u32 f =? FORM_implicit_const
           then if end_ <=? p2 then Err DWARF_E_INVALID_DWARF else ' (_, q) <- get_sleb128 dm p2 end_ ;; Ok q
           else Ok p2) ;;
    if (u32 n =? 0) && (u32 f =? 0) then Ok p3 else check_attrs k dm p3
  end.

(* dwarf_getabbrev.c:108-146, from the code on: the declaration and its length.  p is the
   place after the code. *)
Definition parse_rest (dm : bytes) (off code p : Z) : outcome (abbrev * Z) :=
  let end_ := zlen dm in
  if end_ <=? p then Err DWARF_E_INVALID_DWARF else
  ' (tag, p1) <- get_uleb128 dm p end_ ;;
  if end_ <=? p1 + 1 then Err DWARF_E_INVALID_DWARF else
  match znth dm p1 with
  | None => UB
  | Some c =>
    let ab := Abbrev (code mod 2 ^ 31) (u32 tag) (c =? 1) (p1 + 1) off in
    e <- check_attrs (S (length dm)) dm (p1 + 1) ;;
    Ok (ab, e - off)
  end.

(* The hash table of a unit (libdwP.h:342 abbrev_hash, an instance of dynamicsizehash.c proved
   in HtabProps): the entries, one per key; key 0 is replaced by 1 (dynamicsizehash.c:215, 259). *)
Definition hash := list (Z * abbrev).
Definition key (code : Z) : Z := if code =? 0 then 1 else code.
Fixpoint hfind (h : hash) (k : Z) : option abbrev :=
  match h with [] => None | (k', a) :: r => if k' =? k then Some a else hfind r k end.
Definition hinsert (h : hash) (k : Z) (a : abbrev) : hash := match hfind h k with Some _ => h | None => (k, a) :: h end.
Fixpoint hset (h : hash) (k : Z) (a : abbrev) : hash :=
  match h with [] => [] | (k', a') :: r => if k' =? k then (k', a) :: r else (k', a') :: hset r k a end.

Inductive got := EndAbbrev | Got (a : abbrev) (len : Z).
(* dwarf_getabbrev.c:36-155 __libdw_getabbrev.  [h] is None when no unit is given.  The length
   is meaningless when not asked for.  A repeated parse that fails would leave the entry of the
   table half written; that is not represented (AbbrevProof.getabbrev_ok: it does not fail). *)
Definition getabbrev (dm : option bytes) (h : option hash) (off : Z) (want_length : bool) : outcome got * option hash :=
  match dm with
  | None => (Err 0, h)
  | Some dm =>
    if zlen dm <=? off then (Err DWARF_E_INVALID_OFFSET, h) else
    match znth dm off with
    | None => (UB, h)
    | Some 0 => (Ok EndAbbrev, h)
    | Some _ =>
      match get_uleb128 dm off (zlen dm) with
      | Ok (c, p) =>
        let code := u32 c in
        let found := match h with None => None | Some h => hfind h (key code) end in
        match found with
        | Some a =>
          if negb (ab_offset a =? off) then (Err DWARF_E_INVALID_DWARF, h)
          else if negb want_length then (Ok (Got a 0), h)
          else match parse_rest dm off code p with
               | Ok (a', len) => (Ok (Got a' len), match h with None => None | Some h => Some (hset h (key code) a') end)
               | Err e => (Err e, h) | UB => (UB, h) | Fuel => (Fuel, h)
               end
        | None =>
          match parse_rest dm off code p with
          | Ok (a', len) => (Ok (Got a' len), match h with None => None | Some h => Some (hinsert h (key (ab_code a')) a') end)
          | Err e => (Err e, h) | UB => (UB, h) | Fuel => (Fuel, h)
          end
        end
      | Err e => (Err e, h) | UB => (UB, h) | Fuel => (Fuel, h)
      end
    end
  end.

(* dwarf_offabbrev.c:36-52 *)
Definition offabbrev (dm : option bytes) (off : Z) : outcome got := fst (getabbrev dm None off true).

(* The abbreviation state of a unit: the hash table and last_abbrev_offset, None for -1. *)
Record acache := Acache { c_hash : hash; c_last : option Z }.
Definition hash_of (h : option hash) (d : hash) : hash := match h with Some h => h | None => d end.

(* dwarf_getabbrev.c:158-178 dwarf_getabbrev; [base] is orig_abbrev_offset *)
Definition dwarf_getabbrev (dm : option bytes) (base : Z) (st : acache) (off : Z) (want_length : bool) : outcome got * acache :=
  match dm with
  | None => (Err 0, st)
  | Some d =>
    if u64 (zlen d - base) <=? off then (Err DWARF_E_INVALID_OFFSET, st)
    else let '(r, h) := getabbrev dm (Some (c_hash st)) (u64 (base + off)) want_length in (r, Acache (hash_of h (c_hash st)) (c_last st))
  end.

(* dwarf_tag.c:36-76 __libdw_findabbrev: None is DWARF_END_ABBREV. *)
Fixpoint find_loop (fuel : nat) (dm : option bytes) (st : acache) (code : Z) : outcome (option abbrev * acache) :=
  match c_last st with
  | None => Ok (None, st)
  | Some off =>
    match fuel with
    | O => Fuel
    | S k =>
      match getabbrev dm (Some (c_hash st)) off true with
      | (Ok (Got a len), h) =>
        let st' := Acache (hash_of h (c_hash st)) (Some (off + len)) in
        if ab_code a =? code then Ok (Some a, st') else find_loop k dm st' code
      | (Ok EndAbbrev, h) | (Err _, h) => Ok (None, Acache (hash_of h (c_hash st)) None)
      | (UB, _) => UB
      | (Fuel, _) => Fuel
      end
    end
  end.
Definition findabbrev (dm : option bytes) (st : acache) (code : Z) : outcome (option abbrev * acache) :=
  if code =? 0 then Ok (None, st)
  else match hfind (c_hash st) (key code) with
       | Some a => Ok (Some a, st)
       | None => find_loop (match dm with Some d => S (S (length d)) | None => 2%nat end) dm st code
       end.

(* ------------------------------------------------------------------ *)
(* Walks over the attribute specifications without checks.  The fuel covers every walk that
   stays inside; [tok] is one specification: name, form and the place after them. *)
Definition tok (dm : bytes) (p : Z) : outcome (Z * Z * Z) :=
  ' (n, p1) <- get_uleb128_unchecked dm p ;;
  ' (f, p2) <- get_uleb128_unchecked dm p1 ;;
  Ok (u32 n, u32 f, p2).

(* dwarf_hasattr.c:53-74 *)
Fixpoint has_walk (fuel : nat) (dm : bytes) (name p : Z) : outcome bool :=
  match fuel with
  | O => Fuel
  | S k =>
    ' (n, f, q) <- tok dm p ;;
    if (n =? 0) && (f =? 0) then Ok false
    else if n =? name then Ok true
    else if f =? FORM_implicit_const then ' (_, q') <- get_sleb128_unchecked dm q ;; has_walk k dm name q'
    else has_walk k dm name q
  end.
Definition hasattr (dm : bytes) (a : abbrev) (name : Z) : outcome bool := has_walk (S (length dm)) dm name (ab_attrp a).

(* dwarf_getabbrevattr.c:39-84 dwarf_getabbrevattr_data: name, form, data and offset *)
Fixpoint data_walk (fuel : nat) (dm : bytes) (cnt idx : Z) (p : Z) : outcome (Z * Z * Z * Z) :=
  match fuel with
  | O => Fuel
  | S k =>
    ' (n, f, q) <- tok dm p ;;
    ' (d, q') <- (if f =? FORM_implicit_const then get_sleb128_unchecked dm q else Ok (0, q)) ;;
    if (n =? 0) && (f =? 0) then Err 0
    else if cnt <? idx then data_walk k dm (cnt + 1) idx q' else Ok (n, f, d, p)
  end.
Definition getabbrevattr_data (dm : bytes) (a : abbrev) (idx : Z) : outcome (Z * Z * Z * Z) :=
  ' (n, f, d, p) <- data_walk (S (length dm)) dm 0 idx (ab_attrp a) ;; Ok (n, f, d, p - ab_attrp a + ab_offset a).

(* dwarf_getattrcnt.c:36-60; the counter is not reduced to int *)
Fixpoint cnt_walk (fuel : nat) (dm : bytes) (cnt : Z) (p : Z) : outcome Z :=
  match fuel with
  | O => Fuel
  | S k => ' (n, f, q) <- tok dm p ;; if (n =? 0) || (f =? 0) then Ok cnt else cnt_walk k dm (cnt + 1) q
  end.
Definition getattrcnt (dm : bytes) (a : abbrev) : outcome Z := cnt_walk (S (length dm)) dm 0 (ab_attrp a).

(* ------------------------------------------------------------------ *)
(* Entries.  libdw.h:122-131 Dwarf_Die: its address and the abbreviation if already known. *)
Inductive known := Unknown | KnownEnd | Known (a : abbrev).
Record die := Die { d_addr : Z; d_abbrev : known }.
Definition end_or (o : option abbrev) : known := match o with Some a => Known a | None => KnownEnd end.

(* libdwP.h:646-668 __libdw_dieabbrev: the abbreviation (None: DWARF_END_ABBREV), the place
   after the code (0 if not read), the entry with the abbreviation filled in and the new state.
   [rp] tells whether the place is asked for. *)
Definition dieabbrev (u : cu) (dm : option bytes) (st : acache) (d : die) (rp : bool) : outcome (option abbrev * Z * die * acache) :=
  let have := match d_abbrev d with Unknown => false | _ => true end in
  if negb have || rp then
    if u_endp u <=? d_addr d then Ok (None, 0, Die (d_addr d) KnownEnd, st)
    else ' (code, q) <- get_uleb128 (u_mem u) (d_addr d) (u_endp u) ;;
         match d_abbrev d with
         | Known a => Ok (Some a, q, d, st)
         | KnownEnd => Ok (None, q, d, st)
         | Unknown => ' (r, st') <- findabbrev dm st (u32 code) ;; Ok (r, q, Die (d_addr d) (end_or r), st')
         end
  else match d_abbrev d with Known a => Ok (Some a, 0, d, st) | _ => Ok (None, 0, d, st) end.

(* dwarf_child.c:36-123 __libdw_find_attr.  AtEnd: not found, the place after all values;
   InDie / InAbbrev: found, the place of the value; Bad: NULL. *)
Definition INVALID : Z := 4294960196.      (* 0xffffe444 *)
Inductive fattr := Bad | AtEnd (p : Z) | InDie (name form p : Z) | InAbbrev (name form p : Z).
Fixpoint fa_walk (fuel : nat) (u : cu) (dm : bytes) (name ap rp : Z) : outcome fattr :=
  match fuel with
  | O => Fuel
  | S k =>
    ' (n, f, q) <- tok dm ap ;;
    if (n =? 0) && (f =? 0) then Ok (AtEnd rp)
    else if (n =? name) && negb (name =? INVALID) then Ok (if f =? FORM_implicit_const then InAbbrev n f q else InDie n f rp)
    else if f =? 0 then fa_walk k u dm name q rp
    else match val_len u f rp with
         | Ok len => if f =? FORM_implicit_const then ' (_, q') <- get_sleb128_unchecked dm q ;; fa_walk k u dm name q' (rp + len)
                     else fa_walk k u dm name q (rp + len)
         | Err _ => Ok Bad
         | UB => UB
         | Fuel => Fuel
         end
  end.
Definition find_attr (u : cu) (dm : option bytes) (st : acache) (d : die) (name : Z) : outcome (fattr * die * acache) :=
  ' (r, rp, d', st') <- dieabbrev u dm st d true ;;
  match r, dm with
  | Some a, Some m => f <- fa_walk (S (length m)) u m name (ab_attrp a) rp ;; Ok (f, d', st')
  | _, _ => Ok (Bad, d', st')
  end.

(* dwarf_attr.c:37-52: None is NULL *)
Definition dwarf_attr (u : cu) (dm : option bytes) (st : acache) (d : die) (name : Z) : outcome (option attr * die * acache) :=
  ' (f, d', st') <- find_attr u dm st d name ;;
  Ok (match f with
      | Bad => None
      | AtEnd p => if INVALID =? name then Some (Attr INVALID INVALID p []) else None
      | InDie n f p => if n =? name then Some (Attr n f p []) else None
      | InAbbrev n f p => if n =? name then Some (Attr n f p (match dm with Some m => m | None => [] end)) else None
      end, d', st').

(* dwarf_tag.c:79-92 (None: DW_TAG_invalid), dwarf_haschildren.c:37-49 (None: -1),
   dwarf_hasattr.c:37-75 *)
Definition dwarf_tag (u : cu) (dm : option bytes) (st : acache) (d : die) : outcome (option Z * die * acache) :=
  ' (r, _, d', st') <- dieabbrev u dm st d false ;; Ok (option_map ab_tag r, d', st').
Definition dwarf_haschildren (u : cu) (dm : option bytes) (st : acache) (d : die) : outcome (option bool * die * acache) :=
  ' (r, _, d', st') <- dieabbrev u dm st d false ;; Ok (option_map ab_children r, d', st').
Definition dwarf_hasattr (u : cu) (dm : option bytes) (st : acache) (d : die) (name : Z) : outcome (bool * die * acache) :=
  ' (r, _, d', st') <- dieabbrev u dm st d false ;;
  match r, dm with Some a, Some m => b <- hasattr m a name ;; Ok (b, d', st') | _, _ => Ok (false, d', st') end.

(* The result of moving in the tree: 0 with the new entry, 1 or -1. *)
Inductive moved := MovedTo (addr : Z) | NoMore | Failed.

(* dwarf_child.c:153-165: an unsigned LEB128 zero, however long *)
Fixpoint null_entry (fuel : nat) (u : cu) (p : Z) : outcome bool :=
  match fuel with
  | O => Fuel
  | S k =>
    if u_endp u <=? p then Ok true
    else match znth (u_mem u) p with
         | None => UB
         | Some x => if x =? 128 then null_entry k u (p + 1) else Ok (x =? 0)
         end
  end.
(* dwarf_child.c:126-181 dwarf_child *)
Definition dwarf_child (u : cu) (dm : option bytes) (st : acache) (d : die) : outcome (moved * die * acache) :=
  ' (r, _, d1, st1) <- dieabbrev u dm st d false ;;
  match r with
  | None => Ok (Failed, d1, st1)
  | Some a =>
    if negb (ab_children a) then Ok (NoMore, d1, st1)
    else ' (f, d2, st2) <- find_attr u dm st1 d1 INVALID ;;
         match f with
         | AtEnd p => z <- null_entry (S (length (u_mem u))) u p ;; Ok (if z : bool then NoMore else MovedTo p, d2, st2)
         | _ => Ok (Failed, d2, st2)
         end
  end.

(* dwarf_siblingof.c:102-122: skip null entries.  inl: the walk is over; inr: an entry at
   this address, at this level. *)
Fixpoint skip_nulls (fuel : nat) (u : cu) (level p : Z) : outcome (moved + Z * Z) :=
  match fuel with
  | O => Fuel
  | S k =>
    if u_endp u <=? p then Ok (inl NoMore)
    else match znth (u_mem u) p with
         | None => UB
         | Some x => if negb (x =? 0) then Ok (inr (level, p))
                     else if level =? 0 then Ok (inl NoMore) else skip_nulls k u (level - 1) (p + 1)
         end
  end.
Definition DW_AT_sibling : Z := 1.
(* dwarf_siblingof.c:62-148; level is an unsigned int *)
Fixpoint sib_walk (fuel : nat) (u : cu) (dm : option bytes) (st : acache) (level : Z) (d : die) : outcome (moved * acache) :=
  match fuel with
  | O => Fuel
  | S k =>
    ' (f, d', st') <- find_attr u dm st d DW_AT_sibling ;;
    let next (level addr : Z) :=
      r <- skip_nulls (S (length (u_mem u))) u level addr ;;
      match r with
      | inl m => Ok (m, st')
      | inr (level', p) => if level' =? 0 then Ok (MovedTo p, st') else sib_walk k u dm st' level' (Die p Unknown)
      end in
    match f with
    | InDie n form p =>
      match formref u (Attr n form p []) with
      | Ok off =>
        if (u64 (u_endp u - u_startp u) <=? off) || (off <=? u64 (d_addr d - u_startp u)) then Ok (Failed, st')
        else next level (u_startp u + off)
      | Err _ => Ok (Failed, st')
      | UB => UB
      | Fuel => Fuel
      end
    | InAbbrev _ _ _ => Ok (Failed, st')                  (* __libdw_formref refuses DW_FORM_implicit_const *)
    | Bad => Ok (Failed, st')
    | AtEnd addr =>
      match d_abbrev d' with
      | Known a => next (if ab_children a then u32 (level + 1) else level) addr
      | _ => Ok (Failed, st')
      end
    end
  end.
Definition dwarf_siblingof (u : cu) (dm : option bytes) (st : acache) (d : die) : outcome (moved * acache) :=
  sib_walk (S (length (u_mem u))) u dm st 0 d.

(* dwarf_getattrs.c:69-117.  The callback is any function of the attributes it was given
   before and the present one; true means DWARF_CB_OK.  The result: the attributes the
   callback was called with and the value returned (Resume off, Done for 1, Wrong for -1). *)
Inductive gresult := Done | Wrong | Resume (off : Z).
Fixpoint ga_walk (fuel : nat) (u : cu) (dm : bytes) (cb : list attr -> attr -> bool) (base off : Z) (seen : list attr) (ap rp : Z)
  : outcome (list attr * gresult) :=
  match fuel with
  | O => Fuel
  | S k =>
    ' (n, f, q) <- tok dm ap ;;
    if (n =? 0) && (f =? 0) then Ok (seen, Done)
    else
      let a := Attr n f (if f =? FORM_implicit_const then q else rp) (if f =? FORM_implicit_const then dm else []) in
      let visit := base + off <=? ap in
      let seen' := if visit then seen ++ [a] else seen in
      if visit && negb (cb seen a) then Ok (seen', Resume (ap - base))
      else if f =? 0 then ga_walk k u dm cb base off seen' q rp
      else match val_len u f rp with
           | Ok len => if f =? FORM_implicit_const then ' (_, q') <- get_sleb128_unchecked dm q ;; ga_walk k u dm cb base off seen' q' (rp + len)
                       else ga_walk k u dm cb base off seen' q (rp + len)
           | Err _ => Ok (seen', Wrong)
           | UB => UB
           | Fuel => Fuel
           end
  end.
(* dwarf_getattrs.c:36-119 *)
Definition dwarf_getattrs (u : cu) (dm : option bytes) (st : acache) (d : die) (cb : list attr -> attr -> bool) (off : Z)
  : outcome (list attr * gresult * die * acache) :=
  if off =? 1 then Ok ([], Done, d, st)
  else ' (r, rp, d', st') <- dieabbrev u dm st d true ;;
       match r, dm with
       | Some a, Some m => ' (l, g) <- ga_walk (S (length m)) u m cb (ab_attrp a) off [] (ab_attrp a) rp ;; Ok (l, g, d', st')
       | _, _ => Ok ([], Wrong, d', st')
       end.
