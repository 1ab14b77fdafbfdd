(* libelf/libelfP.h:93-147, the libelf error codes. *)
From Verif Require Import Base.
Definition ELF_E_NOERROR := 0.
Definition ELF_E_UNKNOWN_ERROR := 1.
Definition ELF_E_UNKNOWN_VERSION := 2.
Definition ELF_E_UNKNOWN_TYPE := 3.
Definition ELF_E_INVALID_HANDLE := 4.
Definition ELF_E_SOURCE_SIZE := 5.
Definition ELF_E_DEST_SIZE := 6.
Definition ELF_E_INVALID_ENCODING := 7.
Definition ELF_E_NOMEM := 8.
Definition ELF_E_INVALID_FILE := 9.
Definition ELF_E_INVALID_ELF := 10.
Definition ELF_E_INVALID_OP := 11.
Definition ELF_E_NO_VERSION := 12.
Definition ELF_E_INVALID_CMD := 13.
Definition ELF_E_RANGE := 14.
Definition ELF_E_ARCHIVE_FMAG := 15.
Definition ELF_E_INVALID_ARCHIVE := 16.
Definition ELF_E_NO_ARCHIVE := 17.
Definition ELF_E_NO_INDEX := 18.
Definition ELF_E_READ_ERROR := 19.
Definition ELF_E_WRITE_ERROR := 20.
Definition ELF_E_INVALID_CLASS := 21.
Definition ELF_E_INVALID_INDEX := 22.
Definition ELF_E_INVALID_OPERAND := 23.
Definition ELF_E_INVALID_SECTION := 24.
Definition ELF_E_INVALID_COMMAND := 25.
Definition ELF_E_WRONG_ORDER_EHDR := 26.
Definition ELF_E_FD_DISABLED := 27.
Definition ELF_E_FD_MISMATCH := 28.
Definition ELF_E_OFFSET_RANGE := 29.
Definition ELF_E_NOT_NUL_SECTION := 30.
Definition ELF_E_DATA_MISMATCH := 31.
Definition ELF_E_INVALID_SECTION_HEADER := 32.
Definition ELF_E_INVALID_DATA := 33.
Definition ELF_E_DATA_ENCODING := 34.
Definition ELF_E_SECTION_TOO_SMALL := 35.
Definition ELF_E_INVALID_ALIGN := 36.
Definition ELF_E_INVALID_SHENTSIZE := 37.
Definition ELF_E_UPDATE_RO := 38.
Definition ELF_E_NOFILE := 39.
Definition ELF_E_GROUP_NOT_REL := 40.
Definition ELF_E_INVALID_PHDR := 41.
Definition ELF_E_NO_PHDR := 42.
Definition ELF_E_INVALID_OFFSET := 43.
Definition ELF_E_INVALID_SECTION_TYPE := 44.
Definition ELF_E_INVALID_SECTION_FLAGS := 45.
Definition ELF_E_NOT_COMPRESSED := 46.
Definition ELF_E_ALREADY_COMPRESSED := 47.
Definition ELF_E_UNKNOWN_COMPRESSION_TYPE := 48.
Definition ELF_E_COMPRESS_ERROR := 49.
Definition ELF_E_DECOMPRESS_ERROR := 50.
