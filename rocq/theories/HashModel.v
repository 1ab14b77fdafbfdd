(* Model of the hash and checksum functions: libelf/dl-hash.h,
   libelf/elf_hash.c, libelf/elf_gnu_hash.c, lib/crc32.c, lib/crc32_file.c.
   A string argument is the list of the bytes from the pointer to the end of
   the memory object; running off the end is UB. *)
From Verif Require Import Base LebModel.

(* libelf/dl-hash.h:45-66, the while loop ("unsigned long int" is 64 bits). *)
Fixpoint dl_hash_loop (name : bytes) (hash : Z) : outcome Z :=
  match name with
  | [] => UB
  | c :: name' =>
      if c =? 0 then Ok hash
      else
        let hash := u64 (u64 (Z.shiftl hash 4) + c) in
        let hi := Z.land hash 4026531840 (* 0xf0000000 *) in
        dl_hash_loop name' (Z.lxor hash (Z.shiftr hi 24))
  end.

(* The operand *p of a byte read. *)
Definition deref (name : bytes) (i : Z) : outcome Z :=
  match znth name i with None => UB | Some c => Ok c end.

(* libelf/dl-hash.h:27-73 _dl_elf_hash; the result is converted to
   "unsigned int". *)
Definition dl_elf_hash (name : bytes) : outcome Z :=
  c0 <- deref name 0 ;;
  if c0 =? 0 then Ok c0 else
  c1 <- deref name 1 ;;
  if c1 =? 0 then Ok c0 else
  let h1 := u64 (u64 (Z.shiftl c0 4) + c1) in
  c2 <- deref name 2 ;;
  if c2 =? 0 then Ok (u32 h1) else
  let h2 := u64 (u64 (Z.shiftl h1 4) + c2) in
  c3 <- deref name 3 ;;
  if c3 =? 0 then Ok (u32 h2) else
  let h3 := u64 (u64 (Z.shiftl h2 4) + c3) in
  c4 <- deref name 4 ;;
  if c4 =? 0 then Ok (u32 h3) else
  let h4 := u64 (u64 (Z.shiftl h3 4) + c4) in
  h <- dl_hash_loop (skipn 5 name) h4 ;;
  Ok (u32 (Z.land h 268435455 (* 0x0fffffff *))).

(* libelf/elf_hash.c:38-42 elf_hash. *)
Definition elf_hash (name : bytes) : outcome Z := dl_elf_hash name.

(* libelf/elf_gnu_hash.c:41-43, the for loop; "uint_fast32_t" is 64 bits. *)
Fixpoint gnu_hash_loop (s : bytes) (h : Z) : outcome Z :=
  match s with
  | [] => UB
  | c :: s' => if c =? 0 then Ok h else gnu_hash_loop s' (u64 (u64 (h * 33) + c))
  end.

(* libelf/elf_gnu_hash.c:38-45 elf_gnu_hash. *)
Definition elf_gnu_hash (s : bytes) : outcome Z :=
  h <- gnu_hash_loop s 5381 ;; Ok (Z.land h 4294967295).

(* lib/crc32.c:37-91 crc32_table, copied from the source. *)
Definition crc32_table : list Z :=
  [
   0; 1996959894; 3993919788; 2567524794; 124634137; 1886057615;
   3915621685; 2657392035; 249268274; 2044508324; 3772115230; 2547177864;
   162941995; 2125561021; 3887607047; 2428444049; 498536548; 1789927666;
   4089016648; 2227061214; 450548861; 1843258603; 4107580753; 2211677639;
   325883990; 1684777152; 4251122042; 2321926636; 335633487; 1661365465;
   4195302755; 2366115317; 997073096; 1281953886; 3579855332; 2724688242;
   1006888145; 1258607687; 3524101629; 2768942443; 901097722; 1119000684;
   3686517206; 2898065728; 853044451; 1172266101; 3705015759; 2882616665;
   651767980; 1373503546; 3369554304; 3218104598; 565507253; 1454621731;
   3485111705; 3099436303; 671266974; 1594198024; 3322730930; 2970347812;
   795835527; 1483230225; 3244367275; 3060149565; 1994146192; 31158534;
   2563907772; 4023717930; 1907459465; 112637215; 2680153253; 3904427059;
   2013776290; 251722036; 2517215374; 3775830040; 2137656763; 141376813;
   2439277719; 3865271297; 1802195444; 476864866; 2238001368; 4066508878;
   1812370925; 453092731; 2181625025; 4111451223; 1706088902; 314042704;
   2344532202; 4240017532; 1658658271; 366619977; 2362670323; 4224994405;
   1303535960; 984961486; 2747007092; 3569037538; 1256170817; 1037604311;
   2765210733; 3554079995; 1131014506; 879679996; 2909243462; 3663771856;
   1141124467; 855842277; 2852801631; 3708648649; 1342533948; 654459306;
   3188396048; 3373015174; 1466479909; 544179635; 3110523913; 3462522015;
   1591671054; 702138776; 2966460450; 3352799412; 1504918807; 783551873;
   3082640443; 3233442989; 3988292384; 2596254646; 62317068; 1957810842;
   3939845945; 2647816111; 81470997; 1943803523; 3814918930; 2489596804;
   225274430; 2053790376; 3826175755; 2466906013; 167816743; 2097651377;
   4027552580; 2265490386; 503444072; 1762050814; 4150417245; 2154129355;
   426522225; 1852507879; 4275313526; 2312317920; 282753626; 1742555852;
   4189708143; 2394877945; 397917763; 1622183637; 3604390888; 2714866558;
   953729732; 1340076626; 3518719985; 2797360999; 1068828381; 1219638859;
   3624741850; 2936675148; 906185462; 1090812512; 3747672003; 2825379669;
   829329135; 1181335161; 3412177804; 3160834842; 628085408; 1382605366;
   3423369109; 3138078467; 570562233; 1426400815; 3317316542; 2998733608;
   733239954; 1555261956; 3268935591; 3050360625; 752459403; 1541320221;
   2607071920; 3965973030; 1969922972; 40735498; 2617837225; 3943577151;
   1913087877; 83908371; 2512341634; 3803740692; 2075208622; 213261112;
   2463272603; 3855990285; 2094854071; 198958881; 2262029012; 4057260610;
   1759359992; 534414190; 2176718541; 4139329115; 1873836001; 414664567;
   2282248934; 4279200368; 1711684554; 285281116; 2405801727; 4167216745;
   1634467795; 376229701; 2685067896; 3608007406; 1308918612; 956543938;
   2808555105; 3495958263; 1231636301; 1047427035; 2932959818; 3654703836;
   1088359270; 936918000; 2847714899; 3736837829; 1202900863; 817233897;
   3183342108; 3401237130; 1404277552; 615818150; 3134207493; 3453421203;
   1423857449; 601450431; 3009837614; 3294710456; 1567103746; 711928724;
   3020668471; 3272380065; 1510334235; 755167117
  ].

(* "~" on uint32_t. *)
Definition not32 (x : Z) : Z := two32 - 1 - x.

(* lib/crc32.c:99-100, one iteration of the loop. *)
Definition crc32_step (crc b : Z) : Z :=
  Z.lxor (nth (Z.to_nat (Z.land (Z.lxor crc b) 255)) crc32_table 0) (Z.shiftr crc 8).

(* lib/crc32.c:93-102 crc32; buf holds the len bytes. *)
Definition crc32 (crc : Z) (buf : bytes) : Z :=
  not32 (fold_left crc32_step buf (not32 crc)).

(* ------------------------------------------------------------------ *)
(* lib/crc32_file.c:40-92.  The environment decides whether fstat works, how
   each successive mmap call ends, and how many bytes each pread delivers. *)
Inductive map_result := Mapped | MapEnomem | MapFail.

Record file_env := {
  env_fstat_ok : bool;
  env_mmap : nat -> map_result;        (* result of the n-th mmap call *)
  env_pread : nat -> option Z;         (* n-th pread: error, or bytes available *)
  env_pagesize : Z
}.

(* What pread(fd, buffer, 8192, off) returns: an error, 0 exactly at or past
   the end of the file, and otherwise between 1 and the minimum of the buffer
   size and what is left. *)
Definition pread_count (env : file_env) (data : bytes) (n : nat) (off : Z) : option Z :=
  match env_pread env n with
  | None => None
  | Some k => let left := zlen data - off in
              if left <=? 0 then Some 0
              else Some (Z.min (Z.min 8192 left) (Z.max 1 k))
  end.

(* lib/crc32_file.c:82-91, the pread loop; result code and crc. *)
Fixpoint crc_read_loop (fuel n : nat) (env : file_env) (data : bytes) (off crc : Z)
  : outcome (Z * Z) :=
  match fuel with
  | O => Fuel
  | S f =>
      match pread_count env data n off with
      | None => Ok (-1, crc)
      | Some count =>
          if 0 <? count then
            buf <- read_bytes data off count ;;
            crc_read_loop f (S n) env data (off + count) (crc32 crc buf)
          else Ok (0, crc)
      end
  end.

(* lib/crc32_file.c:65-78, the mapping loop, entered with mapsize bytes mapped
   at offset off; nmap counts mmap calls. *)
Fixpoint crc_map_loop (fuel nmap : nat) (env : file_env) (data : bytes)
  (mapsize st_size off crc : Z) (rfuel : nat) : outcome (Z * Z) :=
  match fuel with
  | O => Fuel
  | S f =>
      if st_size <=? mapsize then
        buf <- read_bytes data off st_size ;; Ok (0, crc32 crc buf)
      else
        buf <- read_bytes data off mapsize ;;
        let crc := crc32 crc buf in
        let off := off + mapsize in
        let st_size := st_size - mapsize in
        match env_mmap env nmap with
        | Mapped => crc_map_loop f (S nmap) env data mapsize st_size off crc rfuel
        | _ => crc_read_loop rfuel 0 env data off crc
        end
  end.

(* lib/crc32_file.c:58-61, halving the mapping size on ENOMEM. *)
Fixpoint crc_halve (fuel nmap : nat) (env : file_env) (mapsize : Z)
  : outcome (option Z * nat) :=
  match fuel with
  | O => Fuel
  | S f =>
      if env_pagesize env <=? mapsize then
        match env_mmap env nmap with
        | Mapped => Ok (Some mapsize, S nmap)
        | MapEnomem => crc_halve f (S nmap) env (mapsize / 2)
        | MapFail => Ok (None, S nmap)
        end
      else Ok (None, nmap)
  end.

(* lib/crc32_file.c:57 "((mapsize / 2) + pagesize - 1) & -pagesize", for a
   page size that is a power of two. *)
Definition half_pages (mapsize pagesize : Z) : Z :=
  (mapsize / 2 + pagesize - 1) / pagesize * pagesize.

(* lib/crc32_file.c:40-92 crc32_file: (return code, *resp).  An mmap of an
   empty file fails with EINVAL. *)
Definition crc32_file (fuel : nat) (env : file_env) (data : bytes) : outcome (Z * Z) :=
  let size := zlen data in
  if env_fstat_ok env then
    '(mapped, nmap) <-
      (if size =? 0 then Ok (None, 1%nat) else
       match env_mmap env 0 with
       | Mapped => Ok (Some size, 1%nat)
       | MapFail => Ok (None, 1%nat)
       | MapEnomem => crc_halve fuel 1 env (half_pages size (env_pagesize env))
       end) ;;
    match mapped with
    | Some mapsize => crc_map_loop fuel nmap env data mapsize size 0 0 fuel
    | None => crc_read_loop fuel 0 env data 0 0
    end
  else crc_read_loop fuel 0 env data 0 0.
