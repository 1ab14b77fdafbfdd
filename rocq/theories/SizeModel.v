(* Attributes inherited from other entries, types behind aliases and qualifiers, and sizes
   of types: libdw/dwarf_attr_integrate.c, dwarf_peel_type.c, dwarf_aggregate_size.c,
   dwarf_srclang.c, dwarf_default_lower_bound.c.

   An entry is a number.  The calls of other functions of the library on entries and
   attributes are the fields of [types], any functions; what they do is in DwModel,
   FormModel and UnitModel (C33, C34, C46, C49, C51).  Which error number is set is left
   out.  A signed overflow and the use of an entry that was never set are UB. *)
From Verif Require Import Base ScopeModel.

(* what dwarf_formudata, dwarf_formsdata and dwarf_formref_die give for an attribute *)
Record av := AV { av_u : option Z; av_s : option Z; av_ref : option Z }.
Record types := Types {
  t_tag : Z -> Z;                 (* dwarf_tag, 0: DW_TAG_invalid *)
  t_attr : Z -> Z -> option av;   (* dwarf_attr *)
  t_kid : Z -> nav;               (* dwarf_child *)
  t_sib : Z -> nav;               (* dwarf_siblingof *)
  t_cu : Z -> Z;                  (* CUDIE (die->cu) *)
  t_asize : Z -> Z;               (* die->cu->address_size *)
  t_skel : Z -> option Z }.       (* for the entry of a split unit, that of its skeleton *)

(* dwarf.h:47-125, 166-236 *)
Definition TAG_array : Z := 1.
Definition TAG_enumeration : Z := 4.
Definition TAG_subrange : Z := 33.
Definition TAG_enumerator : Z := 40.
Definition AT_byte_size : Z := 11.
Definition AT_language : Z := 19.
Definition AT_const_value : Z := 28.
Definition AT_lower_bound : Z := 34.
Definition AT_bit_stride : Z := 46.
Definition AT_upper_bound : Z := 47.
Definition AT_abstract_origin : Z := 49.
Definition AT_count : Z := 55.
Definition AT_specification : Z := 71.
Definition AT_type : Z := 73.
Definition AT_byte_stride : Z := 81.

Section size.
Variable w : types.

(* dwarf_attr_integrate.c:57-70: the skeleton of a split unit *)
Definition skeleton_attr (d name : Z) : option av :=
  match t_skel w d with Some s => t_attr w s name | None => None end.
(* dwarf_attr_integrate.c:40-55; n: how many entries may still be looked at *)
Fixpoint follow (n : nat) (d name : Z) : option av :=
  match n with
  | O => skeleton_attr d name
  | S n =>
    match t_attr w d name with
    | Some a => Some a
    | None =>
      let link := match t_attr w d AT_abstract_origin with
                  | Some l => Some l
                  | None => t_attr w d AT_specification
                  end in
      match link with
      | None => skeleton_attr d name
      | Some l => match av_ref l with Some d => follow n d name | None => None end
      end
    end
  end.
(* dwarf_attr_integrate.c:36-72: chain is 16, tested behind each entry *)
Definition integrate (d name : Z) : option av := follow 17 d name.

(* dwarf_peel_type.c:51-58 *)
Definition is_modifier (t : Z) : bool := existsb (Z.eqb t) [22; 38; 53; 55; 71; 75; 45; 64].
Inductive peeled := PDone (r : Z) | PStuck (r : Z) | PError.
(* dwarf_peel_type.c:46-78; n: max_depth *)
Fixpoint peel_loop (n : nat) (d : Z) : peeled :=
  if is_modifier (t_tag w d) then
    match n with
    | O => PError
    | S n =>
      match integrate d AT_type with
      | None => PStuck d
      | Some a => match av_ref a with None => PError | Some d => peel_loop n d end
      end
    end
  else if (t_tag w d =? 0) || Nat.eqb n 0 then PError else PDone d.
(* dwarf_peel_type.c:36-79 *)
Definition peel_type (d : Z) : peeled := peel_loop 64 d.

(* dwarf_aggregate_size.c:37-47 get_type *)
Definition get_type (d : Z) : option Z :=
  match integrate d AT_type with
  | None => None
  | Some a => match av_ref a with
              | None => None
              | Some t => match peel_type t with PDone r => Some r | _ => None end
              end
  end.

(* dwarf_srclang.c:38-47 *)
Definition srclang (d : Z) : Z :=
  match integrate d AT_language with
  | None => -1
  | Some a => match av_u a with Some v => s32 v | None => -1 end
  end.
(* dwarf_default_lower_bound.c:38-88, dwarf.h:693-734 *)
Definition default_lower_bound (lang : Z) : option Z :=
  if existsb (Z.eqb lang) [2; 1; 12; 29; 4; 25; 26; 33; 16; 17; 11; 19; 20; 18; 21; 22; 24; 27; 28; 30; 32; 36; 37] then Some 0
  else if existsb (Z.eqb lang) [3; 13; 5; 6; 7; 8; 14; 34; 35; 9; 10; 23; 15; 31] then Some 1
  else None.

(* dwarf_aggregate_size.c:78-108: the count of a DW_TAG_subrange_type; -1 is None *)
Definition subrange_count (arr c : Z) : outcome (option Z) :=
  match integrate c AT_count with
  | Some a => Ok (av_u a)
  | None =>
    match integrate c AT_upper_bound with
    | None => Ok None
    | Some a =>
      match av_s a with
      | None => Ok None
      | Some upper =>
        let lower :=
          match integrate c AT_lower_bound with
          | Some b => av_s b
          | None =>
            let lang := srclang (t_cu w arr) in
            if lang =? -1 then None else default_lower_bound lang
          end in
        match lower with
        | None => Ok None
        | Some lower =>
          if upper <? lower then Ok None
          else if upper - lower + 1 <? two64 / 2 then Ok (Some (upper - lower + 1)) else UB
        end
      end
    end
  end.

(* dwarf_aggregate_size.c:111-133: the count of a DW_TAG_enumeration_type.  The code asks
   for the children of the array, not of the child, and looks at them if there are none;
   they are then an entry that was never set. *)
Definition enumeration_count (arr : Z) : outcome (option Z) :=
  match t_kid w arr with
  | Bad => Ok None
  | NoMore => UB
  | Got _ => Ok (Some 0)
  end.

(* dwarf_aggregate_size.c:68-144: the loop over the children *)
Fixpoint dims (k : nat) (arr c : Z) (any : bool) (total : Z) : outcome (option Z) :=
  match k with
  | O => Fuel
  | S k =>
    let next any total :=
      match t_sib w c with
      | Got c => dims k arr c any total
      | _ => Ok (if any then Some total else None)
      end in
    let tag := t_tag w c in
    if (tag =? TAG_subrange) || (tag =? TAG_enumeration) then
      n <- (if tag =? TAG_subrange then subrange_count arr c else enumeration_count arr) ;;
      match n with
      | None => Ok None
      | Some n => next true (u64 (total * n))
      end
    else next any total
  end.

(* dwarf_aggregate_size.c:146-165 *)
Definition stride (arr eltsize : Z) : option Z :=
  match integrate arr AT_byte_stride with
  | Some a => av_u a
  | None =>
    match integrate arr AT_bit_stride with
    | Some a => match av_u a with
                | None => None
                | Some s => if negb (s mod 8 =? 0) then None else Some (s / 8)
                end
    | None => Some eltsize
    end
  end.

(* dwarf_aggregate_size.c:51-204 array_size, aggregate_size; n: MAX_DEPTH - depth *)
Fixpoint aggregate_size (k n : nat) (die : option Z) : outcome (option Z) :=
  match n, die with
  | S n, Some d =>
    match integrate d AT_byte_size with
    | Some a => Ok (av_u a)
    | None =>
      let tag := t_tag w d in
      if tag =? TAG_subrange then aggregate_size k n (get_type d)
      else if tag =? TAG_array then
        e <- aggregate_size k n (get_type d) ;;
        match e with
        | None => Ok None
        | Some eltsize =>
          match t_kid w d with
          | Got c =>
            count <- dims k d c false 1 ;;
            match count with
            | None => Ok None
            | Some count =>
              match stride d eltsize with
              | None => Ok None
              | Some s => Ok (Some (u64 (count * s)))
              end
            end
          | _ => Ok None
          end
        end
      else if existsb (Z.eqb tag) [15; 16; 66] then Ok (Some (t_asize w d))
      else Ok None
    end
  | _, _ => Ok None
  end.
(* dwarf_aggregate_size.c:206-216 *)
Definition dwarf_aggregate_size (k : nat) (d : Z) : outcome (option Z) :=
  match peel_type d with
  | PDone r => aggregate_size k 256 (Some r)
  | _ => Ok None
  end.
End size.
