(* What looking up a symbol by address means, independently of the search. *)
From Verif Require Import Base SymModel.

(* a symbol that may name an address at or above [v]: it has a name, is defined, and is neither a section,
   a file nor a thread-local symbol *)
Definition eligible (addr : Z) (m : msym) : Prop :=
  y_name m <> [] /\ y_shn m <> 0 /\ y_val m <= addr /\ ~ In (y_type m) [3; 4; 6].
(* [m] of table [t] is considered with value [v] in file [f]: its (resolved) value, in the main file when it was resolved,
   and for a resolved symbol of an executable or library also the unresolved one *)
Definition considered (i : minfo) (addr : Z) (t : list (option msym)) (m : msym) (v f : Z) : Prop :=
  In (Some m) t /\ eligible addr m /\
  ((v = y_val m /\ f = (if y_res m then i_main i else y_elf m)) \/
   (y_res m = true /\ i_rel i = false /\ v = (y_st m + i_bias i (y_elf m)) mod two64 /\ v <= addr /\ v <> y_val m /\ f = y_elf m)).
(* a sized symbol that contains the address *)
Definition holds (addr : Z) (m : msym) (v : Z) : Prop := v <= addr < v + y_size m.
(* the first section of a list that contains an address; numbers start with 1 *)
Definition in_scn (l : list (Z * Z)) (a k : Z) : Prop :=
  exists p s n q, l = p ++ (s, n) :: q /\ k = zlen p + 1 /\ s <= a < (s + n) mod two64 /\
    Forall (fun x => ~ (fst x <= a < (fst x + snd x) mod two64)) p.
(* a label: a symbol without a size, at the address or in the same section *)
Definition label (i : minfo) (addr : Z) (m : msym) (v f : Z) : Prop :=
  y_size m = 0 /\
  if SHN_LORESERVE <=? y_ndx m then v = addr
  else if i_adj i then in_scn (i_secs i f) ((addr - i_bias i f) mod two64) (y_ndx m)
  else i_find i addr = i_find i v.
(* global before weak before local before anything else *)
Definition strength (m : msym) : Z := match y_bind m with 1 => 3 | 2 => 2 | 0 => 1 | _ => 0 end.
(* [m] at [v] is ranked before [m'] at [v']: closer, or as close with a stronger binding, or also as strong and shorter *)
Definition before (m : msym) (v : Z) (m' : msym) (v' : Z) : Prop :=
  v' < v \/ v' = v /\ (strength m' < strength m \/ strength m' = strength m /\ y_size m < y_size m').
Definition level (m : msym) (v : Z) (m' : msym) (v' : Z) : Prop := v' = v /\ strength m' = strength m /\ y_size m = y_size m'.
(* closeness and strength do not contradict each other *)
Definition agree (i : minfo) (addr : Z) (t : list (option msym)) : Prop :=
  forall m v f m' v' f', considered i addr t m v f -> considered i addr t m' v' f' -> holds addr m v -> holds addr m' v' ->
    v < v' -> strength m <= strength m'.
(* what the C types guarantee *)
Definition sym_ok (m : msym) : Prop := is_u64 (y_st m) /\ is_u64 (y_size m) /\ is_u64 (y_val m).
Definition tab_ok (t : list (option msym)) : Prop := forall m, In (Some m) t -> sym_ok m.
(* the global symbols and the local ones; number 0 is never looked at *)
Definition globals (t : list (option msym)) (fg : Z) : list (option msym) := skipn (Z.to_nat (Z.max 1 fg)) t.
Definition locals (t : list (option msym)) (fg : Z) : list (option msym) := skipn 1 (firstn (Z.to_nat fg) t).
