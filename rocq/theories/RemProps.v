(* C90: the file rebuilt from the memory of a process. *)
From Coq Require Import Sorting.Sorted.
From Verif Require Import Base RemModel RemSpec RemProof.

Definition sections_end (h : rhdr) : Z := (h_shoff h + h_shnum h * h_shentsize h) mod (if h_class h =? 1 then 2 ^ 32 else 2 ^ 64).
Definition header_size (h : rhdr) : Z := if h_class h =? 1 then 52 else 64.
(* the header of the image: without its sections if they are not in the image *)
Definition image_header (h : rhdr) (size : Z) : rhdr :=
  if size <? sections_end h then Rhdr (h_class h) (h_phoff h) (h_phnum h) (h_phentsize h) 0 0 (h_shentsize h) 0 else h.

Lemma she_ok : forall h, shdrs_end h = sections_end h /\ 0 <= sections_end h.
Proof.
  intros h. unfold shdrs_end, sections_end, u32, u64. destruct (h_class h =? 1).
  - split; [reflexivity|]. apply Z.mod_pos_bound. lia.
  - split; [reflexivity|]. apply Z.mod_pos_bound. lia.
Qed.
Lemma base_page : forall page vma segs, 0 < page -> (page | 2 ^ 64) -> vma mod page = 0 -> the_base page vma segs mod page = 0.
Proof.
  intros page vma segs H D V. unfold the_base. destruct (find _ segs) as [g|]; [|exact V]. rewrite (mod64 page D) by assumption.
  unfold page_start. replace (vma - page * (s_vaddr g / page)) with (vma + (- (s_vaddr g / page)) * page) by lia. rewrite Z_mod_plus_full. exact V.
Qed.

(* The image of a loaded file.  The bytes of every segment are the bytes of the file, what is in no page of a segment is zero, the header is that of
   the file, without its section table if that is not in the image, and the load base is where the first page of the file is. *)
Theorem C90_image : forall page read alloc dec decp enc vma b h segs f,
  0 < page -> (page | 2 ^ 64) -> vma mod page = 0 ->
  (forall n, alloc n = true) -> (forall b h, zlen (enc b h) = header_size h) ->
  headers read dec decp vma b h segs ->
  Forall (good_seg page) segs -> ascending segs -> header_size h <= the_end segs ->
  Forall (mapped page read f (the_base page vma segs)) segs ->
  exists img, from_memory page read alloc dec decp enc vma = Rok (img, the_base page vma segs) /\
    zlen img = the_size page segs (sections_end h) /\
    zsub img 0 (header_size h) = enc b (image_header h (zlen img)) /\
    (forall g i, In g segs -> header_size h <= i -> page_start page (s_off g) <= i < s_off g + s_filesz g -> znth img i = znth f i) /\
    (forall i, header_size h <= i < zlen img -> ~ covered page segs i -> znth img i = Some 0).
Proof.
  intros page read alloc dec decp enc vma b h segs f Hp Hd Hv Ha He Hh G A Hz M.
  destruct (headers_ok _ _ _ _ _ _ _ Hh) as (E1 & E2). destruct (she_ok h) as (S1 & S2).
  unfold from_memory. rewrite E1. cbn [rbind]. rewrite E2. cbn [rbind].
  destruct (scan_ok page Hp Hd vma segs (Rscan 0 0 0 vma false) G) as (c & Ec & B & X & Y & Z0). rewrite Ec. cbn [c_base c_end c_end_mem c_size c_found] in *.
  rewrite (fold_max page Hp) in Z0 by exact A.
  destruct (size_ok page Hp segs c (sections_end h) G A S2 X Y Z0) as (I1 & I2 & I3 & I4).
  rewrite S1, I1, Ha. cbn [negb].
  set (size := the_size page segs (sections_end h)) in *.
  assert (Eb : c_base c = the_base page vma segs) by exact B.
  rewrite Eb.
  assert (Hs : 52 <= size) by (unfold header_size in Hz; destruct (h_class h =? 1); lia).
  destruct (read_all_ok page Hp Hd read f (the_base page vma segs) size segs [] (repeat 0 (Z.to_nat size))) as (buf & R & V1 & V2 & V3).
  - apply base_page; assumption.
  - exact G.
  - exact M.
  - intros g Hg. pose proof (end_max segs g A Hg). lia.
  - exact A.
  - intros g k [].
  - intros g [].
  - split; [unfold zlen; rewrite repeat_length; lia|]. split; [intros g i []|]. intros i Hi _. apply zn_repeat. lia.
  - rewrite R. cbn [rbind]. unfold ehsize. change (if h_class h =? 1 then 52 else 64) with (header_size h).
    replace (size <? header_size h) with false by lia.
    change (if size <? sections_end h then no_sections h else h) with (image_header h size).
    set (hd := enc b (image_header h size)).
    assert (Lh : zlen hd = header_size h) by (unfold hd; rewrite He; unfold image_header; destruct (size <? sections_end h); reflexivity).
    assert (Ph : 0 < header_size h) by (unfold header_size; destruct (h_class h =? 1); lia).
    assert (Lb : zlen (blit buf 0 hd) = size) by (rewrite blit_len; lia).
    exists (blit buf 0 hd). split; [reflexivity|]. split; [exact Lb|]. split; [|split].
    + rewrite Lb. fold hd. unfold blit. cbn [Z.to_nat firstn app]. unfold zsub. rewrite <- Lh. unfold zlen. rewrite Nat2Z.id. cbn [Z.to_nat skipn].
      rewrite firstn_app, firstn_all, Nat.sub_diag. cbn [firstn]. apply app_nil_r.
    + intros g i Hg Hi Hr. rewrite blit_nth by lia. rewrite Lh. replace ((0 <=? i) && (i <? 0 + header_size h)) with false by lia. apply (V2 g i Hg Hr).
    + intros i Hi Hc. rewrite Lb in Hi. rewrite blit_nth by lia. rewrite Lh. replace ((0 <=? i) && (i <? 0 + header_size h)) with false by lia. apply V3; [lia | exact Hc].
Qed.
Print Assumptions C90_image.

(* Memory is never overrun, whatever it holds and however reading it fails, as long as the segments are those of a linker, listed in order, and reach past
   the header; an image is given only if all bytes of all segments were read. *)
Theorem C90_safe_partial : forall page read alloc dec decp enc vma b h segs,
  0 < page -> (page | 2 ^ 64) ->
  (forall a n d, read a n n = Some d -> zlen d = n) -> (forall b h, zlen (enc b h) = header_size h) ->
  headers read dec decp vma b h segs ->
  Forall (good_seg page) segs -> ascending segs -> header_size h <= the_end segs ->
  match from_memory page read alloc dec decp enc vma with
  | Rub => False
  | Rerr e => e = TRUNCATED \/ e = NOMEM /\ alloc (the_size page segs (sections_end h)) = false
  | Rok (img, base) => zlen img = the_size page segs (sections_end h) /\ forall g, In g segs ->
      exists n d, s_off g + s_filesz g - page_start page (s_off g) <= n /\
        read (page_start page ((base + s_vaddr g) mod 2 ^ 64)) n n = Some d /\ zlen d = n
  end.
Proof.
  intros page read alloc dec decp enc vma b h segs Hp Hd Rd He Hh G A Hz.
  destruct (headers_ok _ _ _ _ _ _ _ Hh) as (E1 & E2). destruct (she_ok h) as (S1 & S2).
  unfold from_memory. rewrite E1. cbn [rbind]. rewrite E2. cbn [rbind].
  destruct (scan_ok page Hp Hd vma segs (Rscan 0 0 0 vma false) G) as (c & Ec & B & X & Y & Z0). rewrite Ec. cbn [c_base c_end c_end_mem c_size c_found] in *.
  rewrite (fold_max page Hp) in Z0 by exact A.
  destruct (size_ok page Hp segs c (sections_end h) G A S2 X Y Z0) as (I1 & I2 & I3 & I4).
  rewrite S1, I1. set (size := the_size page segs (sections_end h)) in *.
  destruct (alloc size) eqn:Al; cbn [negb]; [|right; split; reflexivity].
  assert (Hs : 52 <= size) by (unfold header_size in Hz; destruct (h_class h =? 1); lia).
  pose proof (read_all_safe page Hp read (c_base c) size segs (repeat 0 (Z.to_nat size)) Rd G) as R.
  assert (Q1 : forall g, In g segs -> seg_end g <= size) by (intros g Hg; pose proof (end_max segs g A Hg); lia).
  assert (Q2 : zlen (repeat 0 (Z.to_nat size)) = size) by (unfold zlen; rewrite repeat_length; lia).
  specialize (R Q1 Q2). destruct (read_all page read size (c_base c) segs (repeat 0 (Z.to_nat size))) as [buf | e |]; cbn [rbind]; [|left; exact R|exact R].
  destruct R as (R1 & R2).
  change (ehsize h) with (header_size h). replace (size <? header_size h) with false by lia. split.
  - change (if size <? sections_end h then no_sections h else h) with (image_header h size).
    assert (Lh : zlen (enc b (image_header h size)) = header_size h) by (rewrite He; unfold image_header; destruct (size <? sections_end h); reflexivity).
    rewrite blit_len; lia.
  - intros g Hg. destruct (R2 g Hg) as (n & d & N1 & N2 & N3). exists n, d. split; [exact N1|]. split; [|exact N3].
    rewrite <- (down_ps page Hp). exact N2.
Qed.
Print Assumptions C90_safe_partial.

(* a process with pages of 4096 bytes whose memory reads as zero, and a 64-bit header with the program headers at 64 *)
Definition ex_read (_ n m : Z) : option bytes := if m =? 0 then None else Some (repeat 0 (Z.to_nat m)).
Definition ex_hdr (phoff n : Z) : rhdr := Rhdr 2 phoff n 56 0 0 64 0.
Definition ex_enc (_ : bytes) (h : rhdr) : bytes := repeat 1 (Z.to_nat (header_size h)).
Definition ex_run (h : rhdr) (segs : list rseg) := from_memory 4096 ex_read (fun _ => true) (fun _ => Some h) (fun _ _ => segs) ex_enc 4194304.

(* The text and data of a program: 0x400000 for the first 300 bytes of the file, 0x601e00 for 200 bytes at 0xe00. *)
Example C90_image_nonvacuous :
  let segs := [Rseg 4194304 0 300 300; Rseg 6299136 3584 200 256] in let h := ex_hdr 64 2 in
  headers ex_read (fun _ => Some h) (fun _ _ => segs) 4194304 (repeat 0 256) h segs /\
  Forall (good_seg 4096) segs /\ ascending segs /\ header_size h <= the_end segs /\
  the_base 4096 4194304 segs = 0 /\ the_size 4096 segs (sections_end h) = 3784 /\
  Forall (mapped 4096 ex_read (repeat 0 4096) 0) segs /\
  match ex_run h segs with Rok (img, base) => zlen img = 3784 /\ base = 0 | _ => False end.
Proof.
  cbn zeta. split; [|split; [|split; [|split; [|split; [|split; [|split]]]]]].
  - unfold headers. cbn [h_phnum h_phentsize h_phoff h_class ex_hdr]. repeat split; try (vm_compute; congruence); try reflexivity.
    exists (repeat 0 112). split; [reflexivity|]. left. split; [vm_compute; congruence|reflexivity].
  - repeat constructor; vm_compute; congruence.
  - repeat constructor; vm_compute; congruence.
  - vm_compute. congruence.
  - reflexivity.
  - reflexivity.
  - assert (K : forall n i, 0 <= i < Z.of_nat n -> znth (repeat 0 n) i = Some 0) by (intros; apply zn_repeat; assumption).
    assert (P : forall g, s_off g + s_filesz g <= 4096 -> 0 <= s_off g -> mapped 4096 ex_read (repeat 0 4096) 0 g).
    { intros g Hg Ho n Hn. exists (repeat 0 (Z.to_nat n)). unfold ex_read. replace (n =? 0) with false by lia. split; [reflexivity|].
      split; [unfold zlen; rewrite repeat_length; lia|]. intros k Hk Hs. pose proof (ps_nonneg 4096 eq_refl (s_off g) Ho). unfold seg_end in Hs.
      rewrite !K; [reflexivity | | lia]. change (Z.of_nat 4096) with 4096. lia. }
    repeat constructor; apply P; cbn; lia.
  - vm_compute. split; reflexivity.
Qed.

(* Segments that are not in order overrun the buffer: its size is taken from the last one. *)
Theorem C90_order_refuted :
  exists segs h, headers ex_read (fun _ => Some h) (fun _ _ => segs) 4194304 (repeat 0 256) h segs /\
    Forall (good_seg 4096) segs /\ ~ ascending segs /\ ex_run h segs = Rub.
Proof.
  exists [Rseg 6303744 8192 200 256; Rseg 4194304 0 300 300], (ex_hdr 64 2). split; [|split; [|split]].
  - unfold headers. cbn [h_phnum h_phentsize h_phoff h_class ex_hdr]. repeat split; try (vm_compute; congruence); try reflexivity.
    exists (repeat 0 112). split; [reflexivity|]. left. split; [vm_compute; congruence|reflexivity].
  - repeat constructor; vm_compute; congruence.
  - intros H. inversion H as [|? ? _ F]; subst. inversion F as [|? ? L _]; subst. vm_compute in L. apply L. reflexivity.
  - reflexivity.
Qed.
Print Assumptions C90_order_refuted.

(* Segments that end before the header does overrun the buffer: the header is stored whatever the size. *)
Theorem C90_header_refuted :
  exists segs h, headers ex_read (fun _ => Some h) (fun _ _ => segs) 4194304 (repeat 0 256) h segs /\
    Forall (good_seg 4096) segs /\ ascending segs /\ ex_run h segs = Rub.
Proof.
  exists [Rseg 4194304 0 16 16], (ex_hdr 64 1). split; [|split; [|split]].
  - unfold headers. cbn [h_phnum h_phentsize h_phoff h_class ex_hdr]. repeat split; try (vm_compute; congruence); try reflexivity.
    exists (repeat 0 56). split; [reflexivity|]. left. split; [vm_compute; congruence|reflexivity].
  - repeat constructor; vm_compute; congruence.
  - repeat constructor.
  - reflexivity.
Qed.
Print Assumptions C90_header_refuted.

(* An offset of the program headers near the end of the 64-bit range wraps around, and they are taken from before the buffer. *)
Theorem C90_wrap_refuted :
  exists segs h, h_phoff h = 2 ^ 64 - 56 /\ h_phnum h = 1 /\ ex_run h segs = Rub.
Proof. exists [Rseg 4194304 0 300 300], (ex_hdr (2 ^ 64 - 56) 1). repeat split. Qed.
Print Assumptions C90_wrap_refuted.

(* A segment with nothing of the file in it, at an offset that is a multiple of the page size, makes a file unreadable that is all there. *)
Theorem C90_bss_refuted :
  exists segs h g, In g segs /\ s_filesz g = 0 /\ s_off g mod 4096 = 0 /\ ascending segs /\
    (forall a n m, 0 < m -> ex_read a n m <> None) /\
    ex_run h segs = Rerr TRUNCATED /\ (exists x, ex_run h (filter (fun s => 0 <? s_filesz s) segs) = Rok x).
Proof.
  exists [Rseg 4194304 0 300 300; Rseg 6295552 4096 0 256], (ex_hdr 64 2), (Rseg 6295552 4096 0 256).
  split; [right; left; reflexivity|]. split; [reflexivity|]. split; [reflexivity|].
  split; [repeat constructor; vm_compute; congruence|].
  split; [intros a n m H; unfold ex_read; replace (m =? 0) with false by lia; discriminate|].
  split; [vm_compute; reflexivity|]. eexists. vm_compute. reflexivity.
Qed.
Print Assumptions C90_bss_refuted.

(* What is not an ELF file, has program headers of a wrong size or none, or has a segment whose address and offset do not agree in the page, is refused;
   so is what cannot be read. *)
Theorem C90_reject : forall page read alloc dec decp enc vma,
  0 < page -> (page | 2 ^ 64) ->
  (read vma 52 256 = None -> from_memory page read alloc dec decp enc vma = Rerr TRUNCATED) /\
  (forall b, read vma 52 256 = Some b -> dec b = None -> from_memory page read alloc dec decp enc vma = Rerr BADELF) /\
  (forall b h, read vma 52 256 = Some b -> dec b = Some h -> header_size h <= zlen b ->
     h_phentsize h <> (if h_class h =? 1 then 32 else 56) \/ h_phnum h = 0 -> from_memory page read alloc dec decp enc vma = Rerr BADELF) /\
  (forall b h segs g, headers read dec decp vma b h segs -> In g segs -> (s_vaddr g - s_off g) mod page <> 0 ->
     from_memory page read alloc dec decp enc vma = Rerr BADELF).
Proof.
  intros page read alloc dec decp enc vma Hp Hd. split; [|split; [|split]].
  - intros E. unfold from_memory, get_ehdr. rewrite E. reflexivity.
  - intros b E D. unfold from_memory, get_ehdr. rewrite E, D. reflexivity.
  - intros b h E D L H. unfold from_memory, get_ehdr. rewrite E, D. change (ehsize h) with (header_size h). replace (zlen b <? header_size h) with false by lia.
    assert (X : negb (h_phentsize h =? phsize h) || (h_phnum h =? 0) = true).
    { unfold phsize. destruct H as [H | ->]; [|apply Bool.orb_true_r]. apply Z.eqb_neq in H. rewrite H. reflexivity. }
    rewrite X. reflexivity.
  - intros b h segs g Hh Hg Hm. destruct (headers_ok _ _ _ _ _ _ _ Hh) as (E1 & E2). unfold from_memory. rewrite E1. cbn [rbind]. rewrite E2. cbn [rbind].
    assert (X : forall l c, In g l -> scan_all page vma l c = None).
    { induction l as [|a l IH]; intros c I; [destruct I|]. cbn [scan_all]. destruct (scan_seg page vma a c) as [c'|] eqn:S0; [|reflexivity].
      destruct I as [-> | I]; [|exact (IH c' I)]. exfalso. unfold scan_seg, u64 in S0. change two64 with (2 ^ 64) in S0. rewrite (mod64 page Hd) in S0 by exact Hp.
      apply Z.eqb_neq in Hm. rewrite Hm in S0. discriminate. }
    rewrite (X segs _ Hg). reflexivity.
Qed.
Print Assumptions C90_reject.
Example C90_reject_nonvacuous :
  ex_run (ex_hdr 64 0) [] = Rerr BADELF /\ ex_run (ex_hdr 64 1) [Rseg 4194304 16 300 300] = Rerr BADELF.
Proof. split; reflexivity. Qed.
