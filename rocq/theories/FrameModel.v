(* libdw/dwarf_cfi_addrframe.c: the frame for an address, from the lookup and the interpreter. *)
From Verif Require Import Base DwModel CfiModel NcfiModel FdeModel.

(* dwarf_cfi_addrframe.c:36-54 dwarf_cfi_addrframe with cfi.c:495-518 __libdw_frame_at_address.  err is the
   error code pending before the call, abi and abi_daf the program of the backend and its data alignment
   factor.  Simplification: the initial state of a CIE is computed again in each call instead of being
   kept with the CIE (cfi.c:434-436); it does not depend on the address. *)
Definition cfi_addrframe (err : Z) (c : cfi) (t : option table) (h : cache) (abi : bytes) (abi_daf : Z) (same : bool) (a : Z)
  : outcome ((frame * bool) + Z) :=
  ' (r, h) <- find_fde c t h a ;;
  match r with
  | inr e => Ok (inr e)
  | inl g =>
    let k := fd_cie g in
    ' (init, same) <- initial_state err c (ic_caf k) (ic_daf k) (ic_enc k) abi abi_daf same (ic_ins k) (ic_end k) ;;
    x <- frame_at_address err c (Cie (ic_caf k) (ic_daf k) (ic_enc k) (Some init)) init same (fd_start g) (fd_end g) (fd_ins g) (fd_iend g) a ;;
    Ok (inl x)
  end.
