(* C06, C07, C08: elf_hash, elf_gnu_hash, crc32 and crc32_file. *)
From Verif Require Import Base LebModel HashModel HashSpec HashProof.

(* ---------------------------------------------------------------- C06 *)
(* Whatever follows the terminating NUL, elf_hash gives the ABI hash. *)
Theorem C06_elf_hash_is_abi_hash :
  forall (s rest : bytes), cstring s -> elf_hash (s ++ 0 :: rest) = Ok (abi_hash s).
Proof. exact dl_elf_hash_abi. Qed.
Print Assumptions C06_elf_hash_is_abi_hash.
(* "jdfgsdhfsdfsd" and "printf" *)
Example C06_elf_hash_nonvacuous :
  cstring [106;100;102;103;115;100;104;102;115;100;102;115;100]
  /\ elf_hash [106;100;102;103;115;100;104;102;115;100;102;115;100;0]
     = Ok (abi_hash [106;100;102;103;115;100;104;102;115;100;102;115;100])
  /\ abi_hash [106;100;102;103;115;100;104;102;115;100;102;115;100] = 242566212
  /\ elf_hash [112;114;105;110;116;102;0] = Ok 125371814 (* printf: 0x077905a6 *).
Proof. split; [repeat (apply Forall_cons; [lia|]); apply Forall_nil|vm_compute; intuition congruence]. Qed.

(* The hash fits the 28 bits the ABI promises. *)
Theorem C06_elf_hash_28_bits :
  forall (s rest : bytes) (h : Z),
    cstring s -> elf_hash (s ++ 0 :: rest) = Ok h -> 0 <= h < 2 ^ 28.
Proof.
  intros s rest h Hs H. unfold elf_hash in H. rewrite dl_elf_hash_abi in H by assumption.
  inversion H; subst. unfold abi_hash.
  destruct (dl_hash_loop_abi s [] 0 0 Hs) as (H' & _ & _ & _ & B); try lia; reflexivity.
Qed.
Print Assumptions C06_elf_hash_28_bits.
Example C06_elf_hash_28_bits_nonvacuous :
  elf_hash [255;15;15;15;15;15;18;0] = Ok 2.
Proof. vm_compute. reflexivity. Qed.

(* ---------------------------------------------------------------- C07 *)
Theorem C07_gnu_hash :
  forall (s rest : bytes), cstring s ->
    elf_gnu_hash (s ++ 0 :: rest) = Ok (gnu_hash_number s mod 2 ^ 32).
Proof. exact elf_gnu_hash_correct. Qed.
Print Assumptions C07_gnu_hash.
Example C07_gnu_hash_nonvacuous :
  elf_gnu_hash [112;114;105;110;116;102;0] = Ok 359345080 (* printf: 0x156b2bb8 *).
Proof. vm_compute; reflexivity. Qed.

(* ---------------------------------------------------------------- C08 *)
Theorem C08_crc32_is_ieee :
  forall (buf : bytes), bytes_ok buf -> crc32 0 buf = ieee_crc32 buf.
Proof. exact crc32_ieee. Qed.
Print Assumptions C08_crc32_is_ieee.
(* the catalogue check value, CRC of "123456789" = 0xCBF43926 *)
Example C08_crc32_is_ieee_nonvacuous :
  bytes_ok [49;50;51;52;53;54;55;56;57]
  /\ crc32 0 [49;50;51;52;53;54;55;56;57] = 3421780262.
Proof. split; [repeat constructor; unfold is_u8; lia|vm_compute; reflexivity]. Qed.

Theorem C08_crc32_incremental :
  forall (c : Z) (a b : bytes), crc32 (crc32 c a) b = crc32 c (a ++ b).
Proof. exact crc32_app. Qed.
Print Assumptions C08_crc32_incremental.
Example C08_crc32_incremental_nonvacuous :
  crc32 (crc32 0 [1;2]) [3] = crc32 0 [1;2;3] /\ crc32 0 [1;2;3] = 1438416925.
Proof. vm_compute; split; reflexivity. Qed.

(* crc32_file: whatever fstat, the mmap calls and the preads do (short reads
   included), the function ends; if it reports success the result is the
   IEEE CRC of the whole file. *)
Theorem C08_crc32_file_sound :
  forall (env : file_env) (data : bytes) (fuel : nat),
    bytes_ok data -> 0 < env_pagesize env ->
    zlen data + env_pagesize env < Z.of_nat fuel ->
    exists code crc, crc32_file fuel env data = Ok (code, crc)
      /\ (code = 0 \/ code = -1)
      /\ (code = 0 -> crc = ieee_crc32 data).
Proof.
  intros env data fuel Hb Hp Hf.
  destruct (crc32_file_ok env data fuel Hp Hf) as (code & crc & E & Hc & Hv).
  exists code, crc. rewrite <- crc32_ieee by assumption. auto.
Qed.
Print Assumptions C08_crc32_file_sound.

(* and it does report success unless a pread fails. *)
Theorem C08_crc32_file_complete :
  forall (env : file_env) (data : bytes) (fuel : nat),
    bytes_ok data -> 0 < env_pagesize env ->
    zlen data + env_pagesize env < Z.of_nat fuel ->
    (forall n, env_pread env n <> None) ->
    crc32_file fuel env data = Ok (0, ieee_crc32 data).
Proof.
  intros env data fuel Hb Hp Hf He. rewrite <- crc32_ieee by assumption.
  now apply crc32_file_success.
Qed.
Print Assumptions C08_crc32_file_complete.
(* mmap fails twice with ENOMEM, then maps one page-sized piece of a 5 byte
   file with 2-byte "pages", then a remap fails and single-byte reads finish. *)
Example C08_crc32_file_nonvacuous :
  let env := {| env_fstat_ok := true;
                env_mmap := fun n => match n with O => MapEnomem | 1%nat => MapEnomem
                                     | 2%nat => Mapped | _ => MapFail end;
                env_pread := fun _ => Some 1; env_pagesize := 2 |} in
  crc32_file 20 env [1;2;3;4;5] = Ok (0, ieee_crc32 [1;2;3;4;5])
  /\ ieee_crc32 [1;2;3;4;5] = 1191942644.
Proof. vm_compute; split; reflexivity. Qed.
