(* What a file rebuilt from memory has to be.  A program is loaded by mapping the pages of its file that hold a segment. *)
From Coq Require Import Sorting.Sorted.
From Verif Require Import Base RemModel.

(* the page an offset or address lies in starts at, and the end of the last page of what ends at x *)
Definition page_start (page x : Z) : Z := page * (x / page).
Definition page_end (page x : Z) : Z := page * ((x + page - 1) / page).
Definition seg_end (g : rseg) : Z := s_off g + s_filesz g.

(* a segment as a linker makes it: not empty, congruent to its address, and nothing near the end of the 64-bit range *)
Definition good_seg (page : Z) (g : rseg) : Prop :=
  0 <= s_off g /\ 0 < s_filesz g <= s_memsz g /\ s_off g + s_memsz g + page <= 2 ^ 64 /\ 0 <= s_vaddr g < 2 ^ 64 /\
  (s_vaddr g - s_off g) mod page = 0.
(* the segments end in the order they are listed in *)
Definition ascending (l : list rseg) : Prop := StronglySorted (fun a b => seg_end a <= seg_end b) l.

(* the pages of the file that hold segment g are mapped: what is past the end of the segment in its last page may be anything *)
Definition mapped (page : Z) (read : Z -> Z -> Z -> option bytes) (f : bytes) (base : Z) (g : rseg) : Prop :=
  forall n, 0 < n <= page_end page (seg_end g) - page_start page (s_off g) ->
  exists d, read ((base + page_start page (s_vaddr g)) mod 2 ^ 64) n n = Some d /\ zlen d = n /\
    forall k, 0 <= k < n -> page_start page (s_off g) + k < seg_end g -> znth d k = znth f (page_start page (s_off g) + k).

(* the header b, h at vma is readable, makes sense, and says that the program headers are segs *)
Definition headers (read : Z -> Z -> Z -> option bytes) (dec : bytes -> option rhdr) (decp : rhdr -> bytes -> list rseg)
  (vma : Z) (b : bytes) (h : rhdr) (segs : list rseg) : Prop :=
  let n := h_phnum h * h_phentsize h in
  read vma 52 256 = Some b /\ dec b = Some h /\ (if h_class h =? 1 then 52 else 64) <= zlen b <= 256 /\
  h_phentsize h = (if h_class h =? 1 then 32 else 56) /\ 0 < h_phnum h /\ 0 <= h_phoff h /\ h_phoff h + n < 2 ^ 64 /\
  exists d, segs = decp h d /\
    ((h_phoff h + n <= zlen b /\ d = zsub b (h_phoff h) n) \/
     (zlen b < h_phoff h + n /\ read ((vma + h_phoff h) mod 2 ^ 64) n n = Some d)).

(* the load base puts the first segment of the first page of the file at the header *)
Definition the_base (page vma : Z) (segs : list rseg) : Z :=
  match find (fun g => s_off g <? page) segs with Some g => (vma - page_start page (s_vaddr g)) mod 2 ^ 64 | None => vma end.
Definition the_end (segs : list rseg) : Z := match rev segs with g :: _ => seg_end g | [] => 0 end.
(* the section headers that end at she can be had: they are in the last page, past the last segment, with no memory in it that is not of the file *)
Definition the_size (page : Z) (segs : list rseg) (she : Z) : Z :=
  match rev segs with
  | [] => 0
  | g :: _ =>
      if (s_filesz g =? s_memsz g) && (she <=? page_end page (seg_end g)) then Z.max (seg_end g) she else seg_end g
  end.
Definition covered (page : Z) (segs : list rseg) (i : Z) : Prop :=
  exists g, In g segs /\ page_start page (s_off g) <= i < page_end page (seg_end g).
