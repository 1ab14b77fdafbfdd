(* What memory handed out has to be. *)
From Coq Require Import Sorting.Sorted.
From Verif Require Import Base ArenaModel.

(* pieces of memory: address and length *)
Definition apart (x y : Z * Z) : Prop := fst x + snd x <= fst y \/ fst y + snd y <= fst x.
(* a piece is inside one of those pieces *)
Definition inside_one (ps : list (Z * Z)) (x : Z * Z) : Prop := exists p, In p ps /\ fst p <= fst x /\ fst x + snd x <= fst p + snd p.
(* a request: no size wraps *)
Definition fair (q : areq) : Prop := 0 <= q_size q * q_cnt q /\ 0 < q_align q /\ 2 * (q_size q * q_cnt q) + q_align q + 24 <= 2 ^ 63.

(* malloc keeps to its contract: each piece it gives, of the size asked for, is apart from those it gave before.  got: pieces so far, first of them that of the handle.
   The size asked for is what the code asks for *)
Fixpoint malloc_ok (def : Z) (l : list blk) (got : list (Z * Z)) (qs : list areq) : Prop :=
  match qs with
  | [] => True
  | q :: r =>
      match l with
      | [] => False
      | b :: _ =>
          let asked := needs_block b (u64 (q_size q * q_cnt q)) (q_align q) in
          match alloc def l (q_size q) (q_cnt q) (q_align q) (q_malloc q) with
          | Aok _ l' =>
              if asked then
                match q_malloc q with
                | None => False
                | Some p => let piece := (p, new_size def (u64 (q_size q * q_cnt q)) (q_align q)) in
                            0 < p /\ p + snd piece <= 2 ^ 64 /\ (forall x, In x got -> apart piece x) /\ malloc_ok def l' (piece :: got) r
                end
              else malloc_ok def l' got r
          | _ => True
          end
      end
  end.
(* all pieces that malloc gave in the history, and those it had given before *)
Fixpoint gotten (def : Z) (l : list blk) (got : list (Z * Z)) (qs : list areq) : list (Z * Z) :=
  match qs, l with
  | q :: r, b :: _ =>
      match alloc def l (q_size q) (q_cnt q) (q_align q) (q_malloc q) with
      | Aok _ l' =>
          match needs_block b (u64 (q_size q * q_cnt q)) (q_align q), q_malloc q with
          | true, Some p => gotten def l' ((p, new_size def (u64 (q_size q * q_cnt q)) (q_align q)) :: got) r
          | _, _ => gotten def l' got r
          end
      | _ => got
      end
  | _, _ => got
  end.
