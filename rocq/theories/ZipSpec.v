(* What a decompression library promises, and what it means to open a file. *)
From Verif Require Import Base ZipModel.

(* zlib reads the data [d]: what it gives is what comes next in it, it gives nothing at the end only or without room, and it may fail *)
Definition gz_stream (d : bytes) (gzread : Z -> Z -> option bytes) : Prop :=
  forall pos room b, 0 <= pos <= zlen d -> 0 <= room -> gzread pos room = Some b ->
    b = zsub d pos (zlen b) /\ pos + zlen b <= zlen d /\ zlen b <= room /\ (b = [] -> room = 0 \/ pos = zlen d).

(* a decoder: [den z rem] is what the rest [rem] of the input has yet to give, None if it is no complete stream.
   Whatever part of the rest a call has at hand, and whatever room, it takes its steps along that. *)
Definition decoder (Zs : Type) (code : Zs -> bytes -> Z -> zres * Z * bytes * Zs) (den : Zs -> bytes -> option bytes) : Prop :=
  forall z inp rest room, 0 <= room -> let '(r, c, o, z') := code z inp room in
    0 <= c <= zlen inp /\ zlen o <= room /\
    match r with
    | ZOK => den z (inp ++ rest) = match den z' (skipn (Z.to_nat c) inp ++ rest) with Some d => Some (o ++ d) | None => None end
    | ZEND => den z (inp ++ rest) = Some o
    | ZERR => (inp = [] -> rest = []) -> 0 < room -> den z (inp ++ rest) = None
    end.

(* realloc never gives more than there is address space, and a buffer that was made bigger is bigger: see C92_memory_refuted *)
Definition sane (alloc : Z -> Z -> bool) : Prop := forall s n, alloc s n = true -> n < 2 ^ 63.
Definition grows (alloc : Z -> Z -> bool) : Prop := forall size start n, 0 <= size -> 0 <= start -> bigger alloc size start = Some n -> size < n.

(* the file that is meant by the file f: f itself, what f is the compressed form of, or the payload behind the boot header in f, plain or compressed *)
Inductive unpacked (kind : bytes -> ekind) (unpack : bytes -> zout) (f : bytes) : bytes -> Prop :=
| Plain : kind f <> K_NONE -> unpacked kind unpack f f
| Packed : forall b, kind f = K_NONE -> unpack f = Zok b -> unpacked kind unpack f b.
Inductive meant (kind : bytes -> ekind) (unpack : bytes -> zout) (mapd : bool) (f : bytes) : bytes -> Prop :=
| Itself : forall b, unpacked kind unpack f b -> meant kind unpack mapd f b
| Image : forall off b, kind f = K_NONE -> unpack f = Zfail E_BADELF -> image_header mapd f = Some off -> unpacked kind unpack (skipn (Z.to_nat off) f) b ->
    meant kind unpack mapd f b.
