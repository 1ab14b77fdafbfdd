(* lib/list.h: the linked-list macros.

   Simplifications: node addresses are integers, 0 is NULL and every other address
   is a live node; the [next] and [previous] members are two functions of the
   address.  [dbg] tells whether assertions are compiled in (NDEBUG not defined);
   a failing one is the outcome Err 134 (abort). *)
From Verif Require Import Base.

Record heap := Heap { nx : Z -> Z; pv : Z -> Z }.
Definition upd (f : Z -> Z) (a v : Z) : Z -> Z := fun x => if x =? a then v else f x.
Definition set_nx (h : heap) (a v : Z) : outcome heap :=
  if a =? 0 then UB else Ok (Heap (upd (nx h) a v) (pv h)).
Definition set_pv (h : heap) (a v : Z) : outcome heap :=
  if a =? 0 then UB else Ok (Heap (nx h) (upd (pv h) a v)).
Definition get_nx (h : heap) (a : Z) : outcome Z := if a =? 0 then UB else Ok (nx h a).
Definition get_pv (h : heap) (a : Z) : outcome Z := if a =? 0 then UB else Ok (pv h a).

Definition assertion (dbg : bool) (c : bool) : outcome unit :=
  if dbg && negb c then Err 134 else Ok tt.

(* list.h:33-46 CDBL_LIST_ADD_REAR: the heap and the new value of [first]. *)
Definition cdbl_add_rear (dbg : bool) (h : heap) (first newp : Z) : outcome (heap * Z) :=
  n <- get_nx h newp ;; p <- get_pv h newp ;;
  _ <- assertion dbg (n =? 0) ;; _ <- assertion dbg (p =? 0) ;;
  if first =? 0 then
    h <- set_pv h newp newp ;; h <- set_nx h newp newp ;; Ok (h, newp)
  else
    h <- set_nx h newp first ;;
    fp <- get_pv h first ;; h <- set_pv h newp fp ;;
    np <- get_pv h newp ;; nn <- get_nx h newp ;;
    h <- set_pv h nn newp ;; h <- set_nx h np newp ;; Ok (h, first).

(* list.h:55-61: the walk in the assertion of CDBL_LIST_DEL *)
Fixpoint del_walk (fuel : nat) (h : heap) (first elem runp : Z) : outcome Z :=
  match fuel with
  | O => Fuel
  | S fuel => if runp =? first then Ok runp
              else if runp =? elem then Ok runp
              else r <- get_nx h runp ;; del_walk fuel h first elem r
  end.
(* list.h:53-61 *)
Definition del_check (fuel : nat) (h : heap) (first elem : Z) : outcome bool :=
  if (first =? 0) || (elem =? 0) then Ok false
  else if negb (first =? elem) then Ok true
  else r <- get_nx h first ;; e <- del_walk fuel h first elem r ;; Ok (e =? elem).

(* list.h:49-72 CDBL_LIST_DEL.  71: the links are cleared only inside the
   assertion. *)
Definition cdbl_del (dbg : bool) (fuel : nat) (h : heap) (first elem : Z) : outcome (heap * Z) :=
  _ <- (if dbg then c <- del_check fuel h first elem ;; assertion dbg c else Ok tt) ;;
  en <- get_nx h elem ;;
  ' (h, first) <-
    (if en =? elem then Ok (h, 0)
     else
       ep <- get_pv h elem ;;
       h <- set_pv h en ep ;;
       ep <- get_pv h elem ;; en <- get_nx h elem ;;
       h <- set_nx h ep en ;;
       en <- get_nx h elem ;;
       Ok (h, if first =? elem then en else first)) ;;
  h <- (if dbg then h <- set_pv h elem 0 ;; set_nx h elem 0 else Ok h) ;;
  Ok (h, first).

(* list.h:76-82 SNGL_LIST_PUSH *)
Definition sngl_push (dbg : bool) (h : heap) (first newp : Z) : outcome (heap * Z) :=
  n <- get_nx h newp ;; _ <- assertion dbg (n =? 0) ;;
  h <- set_nx h newp first ;; Ok (h, newp).

(* list.h:86-97 CSNGL_LIST_ADD_REAR ([first] is the last element) *)
Definition csngl_add_rear (dbg : bool) (h : heap) (first newp : Z) : outcome (heap * Z) :=
  n <- get_nx h newp ;; _ <- assertion dbg (n =? 0) ;;
  if first =? 0 then h <- set_nx h newp newp ;; Ok (h, newp)
  else
    fn <- get_nx h first ;; h <- set_nx h newp fn ;;
    h <- set_nx h first newp ;; Ok (h, newp).
