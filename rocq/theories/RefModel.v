(* Life of the descriptors: libelf/elf_begin.c (elf_begin, dup_elf), elf_end.c,
   elf_clone.c, common.h (allocate_elf).

   Simplifications: a descriptor is identified by the number of its allocation, so
   addresses are never used again; the list threaded through children/next is a list
   of identifiers, most recent first; of the kind only "archive or not" matters;
   locks are left out (elf_end.c:75 returns holding the lock).  What a descriptor owns
   (sections, raw chunks, the mapping) is freed together with it.  Whether reading the
   file or the member succeeds, and what kind it has, is a parameter of the call. *)
From Verif Require Import Base.

Record desc := Desc {
  d_ref : Z;                    (* ref_count, int *)
  d_ar : bool;                  (* kind == ELF_K_AR *)
  d_parent : option nat;        (* parent *)
  d_children : list nat;        (* state.ar.children and their next fields *)
  d_longnames_ok : bool }.      (* state.ar.long_names is NULL or came from malloc *)
Record st := St { hp : nat -> option desc; nxt : nat }.

Definition put (f : nat -> option desc) (d : nat) (x : option desc) : nat -> option desc :=
  fun y => if Nat.eqb y d then x else f y.
Definition store (s : st) (d : nat) (x : desc) : st := St (put (hp s) d (Some x)) (nxt s).
Definition deref (s : st) (d : nat) : outcome desc :=
  match hp s d with Some x => Ok x | None => UB end.

Definition set_ref (x : desc) (r : Z) := Desc r (d_ar x) (d_parent x) (d_children x) (d_longnames_ok x).
Definition set_children (x : desc) (l : list nat) := Desc (d_ref x) (d_ar x) (d_parent x) l (d_longnames_ok x).

(* common.h:68-93 allocate_elf: the new descriptor has one reference. *)
Definition allocate (s : st) (parent : option nat) (ar lok : bool) : st * nat :=
  (St (put (hp s) (nxt s) (Some (Desc 1 ar parent [] lok))) (S (nxt s)), nxt s).

(* elf_begin.c:1085-1177 and 989-1047 (dup_elf).  ok: None when the call fails (wrong
   command or file, no further member, no memory), otherwise whether what is opened is
   an archive.  The result is the descriptor, None for NULL. *)
Definition elf_begin (s : st) (ref : option nat) (ok : option bool) : outcome (st * option nat) :=
  match ref with
  | None =>
    match ok with
    | None => Ok (s, None)
    | Some ar => let (s, d) := allocate s None ar true in Ok (s, Some d)
    end
  | Some r =>
    x <- deref s r ;;
    match ok with
    | None => Ok (s, None)
    | Some ar =>
      if negb (d_ar x) then                                     (* 1019-1023 *)
        if d_ref x =? two31 - 1 then UB                         (* signed overflow *)
        else Ok (store s r (set_ref x (d_ref x + 1)), Some r)
      else                                                      (* 1029-1046 *)
        let (s, d) := allocate s (Some r) ar true in
        x <- deref s r ;;
        Ok (store s r (set_children x (d :: d_children x)), Some d)
    end
  end.

(* elf_clone.c:40-82 with ELF_C_EMPTY.  The clone gets the parent pointer of the
   original but is not entered in the parent's list.  For an archive the member
   state.elf.scns_last stored at line 72 occupies the place of state.ar.long_names
   (libelfP.h:318-385). *)
Definition elf_clone (s : st) (d : nat) (ok : bool) : outcome (st * option nat) :=
  x <- deref s d ;;
  if ok then let (s, c) := allocate s (d_parent x) (d_ar x) (negb (d_ar x)) in Ok (s, Some c)
  else Ok (s, None).

(* elf_end.c:92-104: unlinking; walking past the end is a NULL dereference. *)
Fixpoint unlink (l : list nat) (d : nat) : outcome (list nat) :=
  match l with
  | [] => UB
  | c :: r => if Nat.eqb c d then Ok r else r <- unlink r d ;; Ok (c :: r)
  end.

(* elf_end.c:42-238: the state and the return value. *)
Fixpoint elf_end (fuel : nat) (s : st) (d : nat) : outcome (st * Z) :=
  match fuel with
  | O => Fuel
  | S fuel =>
    x <- deref s d ;;
    if negb (d_ref x =? 0) && negb (d_ref x - 1 =? 0) then           (* 53-59 *)
      Ok (store s d (set_ref x (d_ref x - 1)), d_ref x - 1)
    else
      let x := set_ref x 0 in
      let s := store s d x in
      if d_ar x && (match d_children x with [] => false | _ => true end) then Ok (s, 0)  (* 61-76 *)
      else
        s <- match d_parent x with                                   (* 79-107 *)
             | None => Ok s
             | Some p => y <- deref s p ;; l <- unlink (d_children y) d ;;
                         Ok (store s p (set_children y l))
             end ;;
        if d_ar x && negb (d_longnames_ok x) then UB                 (* 112-115: free *)
        else
          let s := St (put (hp s) d None) (nxt s) in                 (* 234 *)
          match d_parent x with                                      (* 236-237 *)
          | None => Ok (s, 0)
          | Some p => y <- deref s p ;;
                      if d_ref y =? 0 then elf_end fuel s p else Ok (s, 0)
          end
  end.

Definition st0 : st := St (fun _ => None) 0.
