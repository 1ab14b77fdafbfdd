(* What a relocation does to a section, written without looking at how the code does it. *)
From Verif Require Import Base RelocModel.

(* the number in some bytes *)
Definition number (big : bool) (b : bytes) : Z := if big then be_value b else le_value b.
(* t' is t but for the n bytes at off, which have the number v *)
Definition rewrites (big : bool) (t t' : bytes) (off n v : Z) : Prop :=
  0 <= off /\ off + n <= zlen t /\ zlen t' = zlen t /\ (forall i, ~ (off <= i < off + n) -> znth t' i = znth t i) /\ number big (zsub t' off n) = v mod 256 ^ n.

Section spec.
Variables (big : bool) (simple : Z -> option (rtype * Z)) (resolve : Z -> derr + Z) (rela : bool).
(* the value of the symbol of a relocation; no symbol is 0 *)
Definition symbol_is (r : rel) (v : Z) : Prop := (r_sym r = 0 /\ v = 0) \/ (r_sym r <> 0 /\ resolve (r_sym r) = inr v).
(* a relocation of type 0 does nothing.  Others put symbol + addend, or add that to or subtract
   it from what is there; without addends the symbol is added to what is there *)
Definition applies (t : bytes) (r : rel) (t' : bytes) : Prop :=
  (r_type r = 0 /\ t' = t) \/
  (r_type r <> 0 /\ exists ty addsub v, simple (r_type r) = Some (ty, addsub) /\ symbol_is r v /\
     let old := number big (zsub t (r_off r) (rsize ty)) in
     rewrites big t t' (r_off r) (rsize ty) (if rela then (if addsub =? 0 then v + r_add r else old + addsub * (v + r_add r)) else old + v)).
(* a relocation that is not of a simple type, has no symbol value, or is not inside *)
Definition refuses (n : Z) (r : rel) (e : derr) : Prop :=
  r_type r <> 0 /\
  ((simple (r_type r) = None /\ e = E_BADRELTYPE) \/
   exists ty addsub, simple (r_type r) = Some (ty, addsub) /\
     ((r_sym r <> 0 /\ resolve (r_sym r) = inl e) \/
      exists v, symbol_is r v /\
        ((addsub <> 0 /\ rela = false /\ e = E_BADRELTYPE) \/ (n < r_off r + rsize ty /\ e = E_BADRELOFF)))).
(* the sum in a signed number is out of its range *)
Definition overflows (t : bytes) (r : rel) : Prop :=
  rela = false /\ exists ty addsub v, simple (r_type r) = Some (ty, addsub) /\ symbol_is r v /\
    let old := number big (zsub t (r_off r) (rsize ty)) in
    (ty = TSword /\ ~ (- two31 <= s32 old + s32 v < two31)) \/ (ty = TSxword /\ ~ (- two63 <= s64 old + s64 v < two63)).
(* the errors after which the next relocation is looked at *)
Definition skips (e : derr) : Prop := e = E_BADRELTYPE \/ e = E_RELUNDEF.
(* the relocations of a section one after the other, from t to t'; those that are left *)
Inductive run : bytes -> list rel -> bytes -> list rel -> Prop :=
| run_end : forall t, run t [] t []
| run_apply : forall t r t1 rs t2 left, applies t r t1 -> run t1 rs t2 left -> run t (r :: rs) t2 left
| run_skip : forall t r e rs t2 left, refuses (zlen t) r e -> skips e -> run t rs t2 left -> run t (r :: rs) t2 (r :: left).
End spec.

(* two ranges have nothing in common *)
Definition apart (a n b m : Z) : Prop := forall x, ~ (a <= x < a + n /\ b <= x < b + m).

(* what a request for a value in a section gives, from the headers of the file and the callback alone *)
Definition loaded_value (bias : Z) (cb : Z -> option Z) (secs : list sec) (shndx v : Z) : derr + Z :=
  if shndx =? 0 then inr v
  else
    match znth secs shndx with
    | None => inl E_LIBELF
    | Some s =>
      if s_alloc s then
        if s_addr s =? 0 then
          match cb shndx with
          | None => inl E_CB
          | Some a => inr ((v + (if a =? two64 - 1 then 0 (* not loaded *) else a) + bias) mod two64)
          end
        else inr ((v + s_addr s + bias) mod two64)
      else inr v
    end.
(* a history of requests: the answers, and the sections the callback was called for *)
Fixpoint session (bias : Z) (cb : Z -> option Z) (secs : list sec) (reqs : list (Z * Z)) : list (derr + Z) * list Z :=
  match reqs with
  | [] => ([], [])
  | (i, v) :: reqs =>
    let '(secs, n, a) := relocate_value bias cb secs i v in
    let '(l, called) := session bias cb secs reqs in
    (a :: l, if n =? 0 then called else i :: called)
  end.
(* the symbols that can define one, in the order of the modules and of their tables *)
Definition candidate (y : sym) : bool := negb (y_shndx y =? 0) && negb (y_shndx y =? 65522) && negb (y_local y) && negb (y_name y =? 0).
Definition candidates (ms : list modl) : list (modl * sym) := concat (map (fun m => map (pair m) (filter candidate (tl (m_syms m)))) ms).
(* the value of a symbol of a module *)
Definition value_in (m : modl) (y : sym) : derr + Z :=
  if y_shndx y =? 65521 then inr (y_value y) else if m_rel m then m_reloc m (y_shndx y) (y_value y) else inr (m_adj m (y_value y)).
(* the first candidate of the name; if one before has no valid name there is an error *)
Definition definition_of (ms : list modl) (name : bytes) : option (derr + Z) :=
  match find (fun c => match y_str (snd c) with None => true | Some n => if list_eq_dec Z.eq_dec name n then true else false end) (candidates ms) with
  | None => None
  | Some (m, y) => match y_str y with None => Some (inl E_BADSTROFF) | Some _ => Some (value_in m y) end
  end.
