(* Specification of the lookup by address: what an FDE of a section means, and when a result of the
   lookup describes it. *)
From Verif Require Import Base Slice CfiModel CfiSpec NcfiModel NcfiSpec FdeModel.

(* What the letters of an augmentation string say, with the augmentation data: the encoding of the
   addresses of the FDEs ('R', the last one counts), the size of their LSDA pointers ('L'; needed
   only without 'z'), signal frame ('S').  Behind the last letter there may be more data. *)
Inductive says (c : cfi) (z : bool) : bytes -> bytes -> option Z -> Z -> bool -> Prop :=
| S_nil : forall data, says c z [] data None 0 false
| S_addr : forall e s b r n g, says c z s b r n g -> says c z (82 :: s) (e :: b) (match r with None => Some e | Some x => Some x end) n g
| S_lsda : forall e w s b r n g, (if z then w = 0 else fixed_size c e = Some w) -> says c z s b r n g -> says c z (76 :: s) (e :: b) r (w + n) g
| S_pers : forall e ptr s b r n g, fixed_size c e = Some (zlen ptr) -> says c z s b r n g -> says c z (80 :: s) (e :: ptr ++ b) r n g
| S_signal : forall s b r n g, says c z s b r n g -> says c z (83 :: s) b r n true.
(* what a CIE says about its FDEs: the encoding of addresses (0, an address, by default), whether their
   augmentation data has its size in front, its size otherwise, and whether they are signal frames *)
Inductive cie_means (c : cfi) (k : acie) : Z -> bool -> Z -> bool -> Prop :=
| M_sized : forall s r n g, a_aug k = 122 :: s -> says c true s (a_data k) r n g ->
    cie_means c k (match r with Some e => e | None => 0 end) true 0 g
| M_bare : forall r n g, says c false (a_aug k) (a_data k) r n g -> n < two64 ->
    cie_means c k (match r with Some e => e | None => 0 end) false n g
| M_eh : a_aug k = [101; 104] -> cie_means c k 0 false 0 false.

(* An FDE: its offset, the offset and contents of its CIE, the first address, the number of bytes
   covered, its instructions. *)
Record aframe := AFrame { r_off : Z; r_cie : Z; r_acie : acie; r_start : Z; r_len : Z; r_ins : bytes }.
Definition frame_means (c : cfi) (es : list (Z * aentry)) (f : aframe) : Prop :=
  exists contents b enc_ sized fsize signal sb lb ab,
    In (r_off f, AFDE (r_cie f) contents) es /\ In (r_cie f, ACIE (r_acie f)) es /\
    entry_bytes c (r_off f) (AFDE (r_cie f) contents) b /\ at_ (c_mem c) (r_off f) b /\
    r_off f + zlen b <= c_dsize c /\ cie_means c (r_acie f) enc_ sized fsize signal /\
    contents = sb ++ lb ++ ab ++ r_ins f /\
    ptr_encodes c enc_ (r_off f + zlen b - zlen contents) (r_start f) sb /\
    fmt_encodes c (Z.land enc_ 15) (r_len f) lb /\
    (if sized then exists n data, uleb_of (zlen data) n /\ ab = n ++ data else zlen ab = fsize) /\
    0 <= r_len f /\ r_start f + r_len f < two64.
Definition covers (f : aframe) (a : Z) : Prop := r_start f <= a < r_start f + r_len f.

(* the section holds the entries es, and behind them nothing or a zero length *)
Definition holds (c : cfi) (es : list (Z * aentry)) : Prop :=
  exists b, entries_bytes c 0 es b /\ at_ (c_mem c) 0 b /\ zlen b <= c_dsize c /\ c_dsize c < two63 /\
    (zlen b = c_dsize c \/ at_ (c_mem c) (zlen b) [0; 0; 0; 0] /\ zlen b + 4 <= c_dsize c).
(* frames are the FDEs of the section; no address is covered by two of them; the augmentation strings
   of the CIEs have a meaning *)
Definition frames_of (c : cfi) (es : list (Z * aentry)) (frames : list aframe) : Prop :=
  (forall off k, In (off, ACIE k) es -> exists e sized n g, cie_means c k e sized n g) /\
  (forall f, In f frames -> frame_means c es f) /\
  (forall off co b, In (off, AFDE co b) es -> exists f, In f frames /\ r_off f = off) /\
  (forall f g a, In f frames -> In g frames -> covers f a -> covers g a -> f = g).

(* the result describes the FDE *)
Definition is_frame (c : cfi) (f : aframe) (g : fde) : Prop :=
  let k := fd_cie g in let a := r_acie f in
  fd_start g = r_start f /\ fd_end g = r_start f + r_len f /\
  at_ (c_mem c) (fd_ins g) (r_ins f) /\ fd_ins g + zlen (r_ins f) = fd_iend g /\ fd_iend g <= c_dsize c /\
  ic_off k = r_cie f /\ ic_caf k = a_caf a /\ ic_daf k = a_daf a /\ ic_ra k = a_ra a /\
  at_ (c_mem c) (ic_ins k) (a_ins a) /\ ic_ins k + zlen (a_ins a) = ic_end k /\ ic_end k <= c_dsize c /\
  exists enc_ sized fsize, cie_means c a enc_ sized fsize (ic_signal k) /\
    (forall p x b, ptr_encodes c enc_ p x b -> ptr_encodes c (ic_enc k) p x b).
(* the answer to a lookup of a *)
Definition answers (c : cfi) (frames : list aframe) (a : Z) (r : lres) : Prop :=
  match r with
  | inl g => exists f, In f frames /\ covers f a /\ is_frame c f g
  | inr e => e = 37 (* DWARF_E_NO_MATCH *) /\ forall f, In f frames -> ~ covers f a
  end.
