(* Model of nlist: libelf/nlist.c, on the hash table of lib/fixedsizehash.h (HtabModel). *)
From Verif Require Import Base HashModel HtabModel CrcModel.

(* nlist.h:33-42 struct nlist; the name is None for a null pointer *)
Record nent := Nent { e_name : option bytes; e_value : Z; e_scnum : Z; e_type : Z; e_sclass : Z; e_numaux : Z }.

(* gelf.h GElf_Sym: the members that nlist looks at besides the name *)
Record nsym := Nsym { y_value : Z; y_shndx : Z; y_info : Z }.

(* nlist.c:42-46 struct hashentry; COMPARE (nlist.c:50) is strcmp of the names *)
Definition hent : Type := bytes * nsym.
Definition same_name (a b : hent) : bool := beq (fst a) (fst b).

(* what nlist asks of one section: gelf_getshdr works, sh_type, elf_getdata works, and for each of
   the sh_size / sizeof (Sym) entries the results of gelf_getsym and of elf_strptr for its name
   (None where the call fails).  Simplified: the calls are given by their results. *)
Record nscn := Nscn { s_hdr : bool; s_type : Z; s_data : bool; s_syms : list (option (nsym * option bytes)) }.

(* nlist.c:90-108: the walk over the sections; the result is None when a header cannot be read *)
Fixpoint find_table (l : list nscn) (symscn : option nscn) : option (option nscn) :=
  match l with
  | [] => Some symscn
  | s :: r =>
      if negb (s_hdr s) then None
      else if s_type s =? 2 then Some (Some s)
      else find_table r (if s_type s =? 11 then Some s else symscn)
  end.

(* elf_hash (str): the string with its terminating null byte *)
Definition hash_name (n : bytes) : outcome Z := elf_hash (n ++ [0]).

(* nlist.c:143-174: all symbols into the table; None is the jump to fail_dealloc *)
Fixpoint enter_syms (t : fshash hent) (l : list (option (nsym * option bytes))) : outcome (option (fshash hent)) :=
  match l with
  | [] => Ok (Some t)
  | None :: _ => Ok None
  | Some (_, None) :: _ => Ok None
  | Some (y, Some n) :: r =>
      match n with
      | [] => enter_syms t r
      | _ => h <- hash_name n ;; ' p <- fs_overwrite hent same_name t h (n, y) ;; enter_syms (fst p) r
      end
  end.

(* nlist.c:192-197 and 201-206: the members of one entry.  long, short and unsigned short *)
Definition fill (e : nent) (y : nsym) : nent := Nent (e_name e) (s64 (y_value y)) (s16 (y_shndx y)) (Z.land (y_info y) 15) 0 0.
Definition clear (e : nent) : nent := Nent (e_name e) 0 0 0 0 0.

(* nlist.c:180-211: the list ends at a null pointer or at an empty name; running over the end of the
   array is UB *)
Fixpoint ask (t : fshash hent) (nl : list nent) : outcome (list nent) :=
  match nl with
  | [] => UB
  | e :: r =>
      match e_name e with
      | None => Ok nl
      | Some [] => Ok nl
      | Some n =>
          h <- hash_name n ;;
          f <- fs_find hent same_name t h (n, Nsym 0 0 0) ;;
          r' <- ask t r ;;
          Ok ((match f with Some d => fill e (snd d) | None => clear e end) :: r')
      end
  end.

(* nlist.c:236-246: all entries to zero *)
Fixpoint zero_all (nl : list nent) : outcome (list nent) :=
  match nl with
  | [] => UB
  | e :: r =>
      match e_name e with
      | None => Ok nl
      | Some [] => Ok nl
      | Some _ => r' <- zero_all r ;; Ok (clear e :: r')
      end
  end.
Definition failed (nl : list nent) : outcome (Z * list nent) := r <- zero_all nl ;; Ok (-1, r).

(* nlist.c:57-249 nlist: [file] is None when the file cannot be opened or elf_begin fails; [npf] bounds
   the search for a prime, [alloc] says whether calloc works *)
Definition nlist (npf : nat) (alloc : Z -> bool) (file : option (list nscn)) (nl : list nent) : outcome (Z * list nent) :=
  match file with
  | None => failed nl
  | Some scns =>
      match find_table scns None with
      | None | Some None => failed nl
      | Some (Some s) =>
          if negb (s_data s) then failed nl
          else
            t <- fs_init hent npf alloc (zlen (s_syms s)) ;;
            match t with
            | None => failed nl
            | Some t =>
                t' <- enter_syms t (s_syms s) ;;
                match t' with
                | None => failed nl
                | Some t' => r <- ask t' nl ;; Ok (0, r)
                end
            end
      end
  end.
