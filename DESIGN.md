# Formal model of elfutils in Rocq: design

## Approach

The model is a set of total, computable Gallina functions that transcribe C
functions of /repo one by one.  Every definition cites the file and lines it
models.  Conventions (theories/Base.v):

* A byte is a `Z` in [0,256); a buffer is a `list Z`; offsets and machine
  integers are `Z` with explicit wrapping (`u8`, `u16`, `u32`, `u64`, `s32`, ...).
  Pointers into a buffer are offsets from the start of that buffer.
* Code whose behaviour can be undefined returns `outcome A`, whose
  constructors are `Ok`, `Err` (an error the code reports), `UB` (a read or
  write outside the object, failed assert, overflow that C leaves undefined)
  and `Fuel` (the loop bound of the model was reached; theorems show this never
  happens, or that it happens for every bound, which is non-termination).
* `XModel.v` is the transcription, `XSpec.v` a specification that does not use
  the model's helpers (for short specifications the definitions stand in front
  of the theorems in `XProps.v`), `XProof.v` the lemmas.  The theorems that
  count are in the `XProps.v` files, each followed by `Print Assumptions` and
  by an `Example ..._nonvacuous` (or a refutation with the same hypotheses)
  that shows that a non-trivial case meets its hypotheses.
* Where the code violates a property the faithful model is kept and the
  theorem is named `*_refuted` (a concrete witness); beside it the strongest true
  statement is proved with its extra hypothesis, named `*_partial`.  A
  property with such theorems has the status "partial" in MANIFEST.json, and
  the note there says what is missing.
* Theorems are tested against wrong programs: seeded/LOG.jsonl lists the
  edits made to the model in a scratch copy and the theorems that then failed.

## Trusted base

* The kernel of Coq 8.16.1 (and coqchk, run by vcheck).
* Axioms: none.  Every theorem is closed under the global context.  coqchk
  lists the fields `Coq.ssr.ssrunder.Under_rel.*` of the standard library for
  the set of all loaded files; they belong to a module signature that is
  loaded with `ssreflect` and no theorem here rests on them.
* The correspondence between the C text and the Gallina text is by reading
  only.  Each definition's comment says where it simplifies.
* A 64-bit host (LP64) is assumed; the host byte order is a parameter
  wherever it matters.  malloc either fails or returns fresh memory; where
  failure matters it is a parameter.  System calls are modelled as functions on
  a file image; their failure only where a comment says so.
* Third-party code enters as a parameter with a hypothesis in the statement:
  zlib's compress/uncompress (C40) as a lossless pair, qsort (C31, C37) as a
  sorting permutation.
* Not modelled: locks and threads (USE_LOCKS is off in the default
  configuration), signals, and the parts of the code named at the end.

## Per property: what is modelled and how it is proved

| id | modelled | method |
|----|----------|--------|
| C01-C03 | memory-access.h LEB128 decoders and unaligned readers over a byte list with UB on out-of-range reads | induction over the loop, value as a sum of 7-bit groups; byte-level case analysis |
| C04 | libasm LEB128 encoders | strong induction on the number; decode-after-encode |
| C05, C44, C45 | asm_add*int*, strings, alignment, fill patterns, __libasm_ensure_section_space, asm_end's block list | block-list model, abstraction function to the byte string, induction over histories |
| C06-C07 | dl-hash.h, elf_gnu_hash.c | loop invariant relating the unmasked accumulator to the ABI one modulo 2^28; induction |
| C08 | crc32.c table and loop, crc32_file.c read loop | linearity; table checked against the bitwise definition for 256 entries then induction over the buffer; read schedules quantified as lists |
| C09 | next_prime.c | loop invariant "no odd divisor below divn" |
| C10-C11 | dynamicsizehash.c, fixedsizehash.h | probe sequence is a permutation of the slots for prime size; refinement to a finite map by induction over operations |
| C12 | dwelf_strtab.c | search-tree invariant on reversed strings; accounting of the total size |
| C13 | elf_newscn, elf_getscn, elf_nextscn, elf_getshdrnum on the blocks of sections | invariant over blocks, induction over histories |
| C14-C15 | elf_begin.c (mapped, read, memory), elf_getshdrnum, elf_getshdrstrndx, elf_getphdrnum, loading of headers | image = byte list, all reads checked; specification reads the gABI tables from the image |
| C16-C17, C40 | elf_rawdata, elf_getdata, elf_newdata, elf_getdata_rawchunk, elf_strptr, elf_compress, elf_compress_gnu | state of one section; invariant by induction over histories of calls; zlib as a parameter with a round-trip hypothesis in the statement |
| C18-C21 | gelf_xlate.c and the hand-written translators for notes, versions, GNU hash, compression headers; elf32/64_xlatetom/tof | record layout as list of field widths; memory as a function for chained records |
| C22 | gelf_getnote.c | arithmetic with explicit 32/64-bit widths; iteration by measure |
| C23 | gelf_getX and gelf_update_X for 16 record types, gelf_getsymshndx, gelf_update_symshndx | record layouts; stores and loads of disjoint fields; declarations of elf.h as the specification |
| C24-C26, C54 | elf_begin/elf_next/elf_rand/elf_getarhdr/elf_getarsym on archives, long names | ASCII number parser with explicit widths; invariant of the descriptor over histories; grammar of well-formed archives |
| C27-C28 | elf32/64_updatenull.c | fold over sections with invariant; specification: first aligned place behind the previous item |
| C29, C56 | elf32/64_updatefile.c, updatemmap | file = function from offset to byte; list of writes in the order made; specification by item |
| C30 | elf_begin/elf_clone/elf_end reference counts | state machine with heap of descriptors, invariant by induction over histories |
| C31 | dwarf_getaranges.c, dwarf_getarange_addr.c | parser safety by induction; search against sorted table |
| C32, C46 | dwarf_next_unit.c, libdw_findcu.c | parser with unchecked reads explicit; tree of units as history-dependent state |
| C33, C50 | dwarf_getabbrev.c, dwarf_tag.c (__libdw_findabbrev), abbreviation walks | grammar of declarations; cache state over histories |
| C34, C49 | libdw_form.c, dwarf_formX.c, addrx/strx | encoding relation per form, decode-after-encode and exactness |
| C35-C36 | cfi.c execute_cfi, frame assembly | interpreter against an independent row-table semantics; safety by fuel-indexed invariant |
| C37, C53 | dwarf_getsrclines.c (versions 2-5), dwarf_getsrc_die.c | interpreter against an independent state machine on instruction lists; sorting as a permutation hypothesis |
| C38, C47, C48 | segment.c, dwfl_addrmodule, dwfl_getmodules | sorted-table invariant over histories |
| C39, C55 | dwfl_module_addrsym.c, dwfl_module_getsym.c | fold with ranking invariant; bijection of symbol numbers |
| C41 | elf_flag*.c | bit algebra |
| C42 | dwarf_getlocation.c | parser against an independent operand table |
| C43 | list.h | heap model |
| C51-C52 | dwarf_child.c, dwarf_siblingof.c, dwarf_getattrs.c, dwarf_attr.c, dwarf_tag.c | trees of entries as an encoding relation; induction over the tree |
| C57, C58 | dwarf_ranges.c, dwarf_getlocation.c (lists), dwarf_haspc.c, libdwP.h (list bases) | format-independent entries, their encodings in four formats and what they denote as the specification; induction over the list; arbitrary bytes by a progress measure |
| C59 | dwarf_next_cfi.c, encoded-value.h | encoding relation for CIEs and FDEs in both formats; the reader inverts it, induction over the section; arbitrary bytes: bounds by cases over the reader |
| C60 | fde.c, cie.c, dwarf_cfi_addrframe.c, dwarf_getcfi_elf.c (use of .eh_frame_hdr) | invariant of the cache over any history of lookups; sorted search table with a binary search invariant; composed with C35 for the frame. Search trees are lists |
| C61 | frame_unwind.c (expr_eval, register access) | the DWARF stack machine as a small-step relation; each operation refines one step; the loop by induction over the fuel of 4096 steps; branches by the binary search over sorted offsets |
| C62 | frame_unwind.c (handle_cfi, new_unwound, register setting), with dwarf_frame_register.c and dwarf_frame_cfa.c | the caller's registers as a relation over rules, registers and memory; each register's operations evaluate to it (C61); invariant of the loop over the registers; composed with C60 for the lookup |
| C63 | dwfl_frame.c (dwfl_thread_getframes), frame_unwind.c (__libdwfl_frame_unwind), dwfl_frame_pc.c, dwfl_frame_regs.c | callbacks as interaction trees; big-step relation of the walk as the specification; the cached next frame is invisible, by induction over the tree and over the walk; one step composed with C62 |
| C64 | backends: x86_64_unwind.c, i386_unwind.c, ppc64_unwind.c, aarch64_unwind.c | the layout as the specification; case analysis; termination by the growing stack pointer |
| C65 | dwarf_getpubnames.c | the sets written by an encoder from the DWARF text; decoder inverts it, by induction over sets and names; invariant over the loop for arbitrary bytes |
| C66 | dwarf_getscopes.c, libdw_visit_scopes.c; the reading of entries is a parameter | entries as a forest with imports spliced in; the walk equals a structural recursion over the forest; then induction over the forest; invariants of the walk for arbitrary entries; a measure of imports and addresses for termination |
| C67 | dwarf_getscopes_die.c, libdw_visit_scopes.c; the reading of entries is a parameter | the walk equals a structural recursion over the forest of entries; induction over the forest |
| C68 | dwarf_attr_integrate.c; the reading of entries is a parameter | an inductive specification of inheritance; induction over it and over the remaining references |
| C69 | dwarf_peel_type.c; the reading of entries is a parameter | an inductive specification of peeling; induction over it and over the loop |
| C70 | dwarf_aggregate_size.c, dwarf_default_lower_bound.c, dwarf_srclang.c; the reading of entries is a parameter | an inductive specification of sizes from the DWARF text; both directions by induction; counterexamples for enumerations, empty arrays, overflow and signed bounds |
| C71 | MacModel, MacSpec | reading an encoded unit back by induction over its definitions, operands and entries; an invariant on the kept tables over all calls; induction over the resumptions; any-bytes safety by induction over the loop; witnesses for what is false |
| C72 | SrcModel, SrcSpec | an invariant on the lines kept per table and file: they are the best of the lines so far; induction over lines and units; witnesses for what is false |
| C73 | BkptModel, BkptSpec | correctness of the binary search for ordered tables, the two scans by induction, the ranges by induction; a witness for the marks that are missed |
| C74 | FuncModel, FuncSpec, ScopeModel, ScopeSpec | the walk visits the tree (ScopeProof), the visitor by induction over the tree; induction over the resumptions; an invariant over any walk; witnesses for what is false |
| C75 | FuncModel, FuncSpec, ScopeModel, ScopeSpec | the walk visits the tree, the visitor by induction over the tree; an invariant over any walk; witnesses for what is false |
| C76 | FuncModel, FuncSpec | the loop over one scope by induction over its entries, the search by induction over the scopes; witnesses for what is false |
| C77 | RelocModel, RelocSpec | the loop as an inductive relation of marked entries, induction over the entries; the second call by induction over the first; witnesses for what is false |
| C78 | RelocModel, RelocSpec | invariant over the cached headers by induction over the requests; search by induction over modules and symbols; witnesses for what is false |
| C79 | DereModel, DereSpec | invariants of the two passes by induction over the sections, sortedness of the table, invariant of the bisection; witnesses for layouts where it is false |
| C80 | ReportModel, ReportSpec | invariant that marked modules follow the unmarked ones, permutations of handles by induction over histories; witness for the failed report |
| C81 | OffModel, OffSpec | invariant of the layout loop (start is the least common suitable address, offsets are those from 0), congruences modulo powers of two; witnesses for empty sections, unordered addresses, alignment 0 and large alignments |
| C82 | CrcModel, CrcSpec | the table is checked entry by entry against the division, the step is linear over GF(2); induction over bytes, reads and sections; injectivity of the division for the detection of changes |
| C83 | IdModel, IdSpec | equivalences with the form of the section contents; the search over notes reduced to the iteration of C22; witnesses for sizes of 2^63 and more and build IDs of 2 GiB |
| C84 | FindModel, FindSpec | refinement of the loop with its jumps to a search over lists of names; induction over path elements and subdirectories; writes into the name buffer as checked operations; witnesses for double closing, closed descriptors, files in the root directory and hidden files |
| C85 | NlModel, NlSpec (on HtabModel, HashModel) | invariant of the fixed-size table from C11, extended with the last symbol of each name; induction over symbols and over requests; witnesses for names with hash value zero |
| C86 | PhdrModel, PhdrSpec | simulation between the descriptor and the author's view (header, section, table) by induction over histories; witnesses for mapped tables, unread section headers and tables, missing headers and the stale extended count |
| C87 | OsModel | induction over the blocks and sections with the section remembered so far as invariant; uniqueness of the specified answer |
| C88 | ProcModel | invariant that the state stands for the reported runs and the pending run; uniqueness of the decomposition; induction over buffers of the auxiliary vector |
| C89 | LazyModel | invariant over all histories that relates objects, tree, links, runs and the counter; induction over the binary search |
| C90 | RemModel | invariant over the segments stored: those done hold the bytes of the file, the rest is zero; arithmetic of pages modulo 2^64; witnesses for unordered segments, a short image, a wrapping offset and an empty segment |
| C91 | CoreModel | invariant over the segments that are joined: file offset and address keep one difference; induction over the list of headers; witnesses for a core file cut short, a hole, bytes past the segment and a string cut off |
| C92 | ZipModel | invariant: output so far followed by what the rest of the input has yet to give is the data; a measure for termination; witnesses for a truncated bzip2 file that never ends and for a gzip file cut off when memory is short |
| C93 | ThrModel | induction over the notes with the position as invariant; induction over register locations with disjointness; first segment by order; witnesses for pid 0, a callback that looks at a thread, a register set twice, pages left out and words across segments |
| C94 | PidModel | invariant that the cache equals memory, over histories; induction over what waitpid says; witnesses for words of 32 bits read through the cache and for registers that cannot be had after attaching |
| C95 | BeginModel | the comparison of names shown equal to four forms of each name, and unique by computing with all 72; induction over the sections; for groups a proof that no group with data is ever opened |
| C96 | ArenaModel | invariant over histories: blocks are apart, and pieces lie in the used part of blocks; witnesses for sizes that wrap |
| C97 | StringsModel | induction over the bytes against a scan of all of them, invariant over the reads with what is kept between them; witnesses for offsets, for strings lost and for memory read past the end, and a theorem that wide strings are never found |
| C98 | RanModel | induction over the members, then composition with the theorem about elf_getarsym; witnesses for two indices and for offsets that wrap |
| C99 | SzModel | induction over sections and files against sums over filtered lists; witnesses for large sizes and for missing headers |
| C100 | CntlModel | induction over the path from the handle to a member, relating offsets in the buffer to offsets in the file |

## Findings

Each is a theorem about the faithful model with a concrete witness: the code at the pinned commit does not have the property in that case.

* `C01_uleb128_first_byte_refuted`: The cursor being at the end pointer is not caught: the first byte is read before any comparison with the end (finding F01).
* `C02_sleb128_every_int64_refuted`: The full statement is false: the decoder looks at nine bytes only, so a signed 64-bit number with a ten byte encoding is misread (finding F02).
* `C03_read_3ubyte_inc_refuted`: The cursor-advancing three byte read uses the two byte reader: it does not return the three byte integer (finding F03).
* `C04_sleb128_refuted`: 64 is emitted as 0x40, which every reader decodes as -64.
* `C05_addint_not_stored_refuted`: In every section that has content the integer is never stored: the appended bytes are whatever malloc returned.
* `C09_next_prime_small_arguments_refuted`: Below 4 the function is wrong: it answers 1 for 0 and 1, and skips the primes 2 and 3.
* `C10_allocation_failure_refuted`: If growing the table fails for lack of memory, the old array is kept with the new size: the insert reports success, and a later lookup reads outside the array.
* `C10_iteration_order_refuted`: dynamicsizehash.c:138-139 promises that growing maintains the iteration order; in the REVERSE variant (libasm's symbol table) each growth reverses it: four inserts iterate last-to-first, a fifth one first-to-last.
* `C11_hash_zero_refuted`: Hash value 0 is the mark of an empty slot: an entry stored under it is not found again. There are names with hash value 0.
* `C13_newscn_after_failures_refuted`: After 30 failed allocations the next success writes outside the new block.
* `C13_newscn_no_header_refuted`: If the section header cannot be allocated, a non-NULL section without a header is returned.
* `C13_newscn_readonly_empty_refuted`: A descriptor opened read-only on a file without sections has no slot at all (max = 0): adding a section writes out of bounds.
* `C14_open_safe_refuted`: An image of 16 to 51 (63) bytes which starts like an ELF file: the header is read beyond its end.
* `C15_shstrndx_memory_refuted`: An image in memory in the other byte order: elf_getshdrstrndx fails.
* `C15_shstrndx_member_refuted`: A member of an archive: section 0 is looked for at the wrong place of the archive.
* `C15_phdrnum_refuted`: PN_XNUM and section headers which have not been read: 65535, cut to the room in the file, is returned.
* `C16_strptr_gap_refuted`: Between the records no error is set although NULL is returned.
* `C16_strptr_new_refuted`: A new section without data, whose header has a size: NULL is dereferenced.
* `C16_strptr_enlarged_refuted`: The size is taken from the header at every call: after the user enlarged it, memory behind the section's buffer is searched.
* `C16_strptr_decompressed_refuted`: After a section was decompressed and a block added to it, the offset is looked for in the decompressed data although it lies in the new block: memory behind the decompressed data is read.
* `C17_getdata_nomem_refuted`: The exception is real: memory runs out while a section is converted, and elf_getdata succeeds with an empty record; so it does ever after.
* `C17_rawchunk_refuted`: If the size is no multiple of the record size, part of what is delivered from a mapped file of foreign byte order is uninitialised memory.
* `C18_move_refuted`: Refuted for the move table: the record size used for the length check is 28 in both classes, the structures have 24 and 32 bytes. So one record is refused,
* `C18_overlap_refuted`: Refuted for overlapping buffers, which elf32_xlatetom.c:59-62 promises to handle: a structure type with the destination inside the source.
* `C19_overflow_refuted`: The missing part is false: a name size of 0xfffffffc makes the padded size of the note wrap around, and the payload copy runs far out of the buffer.
* `C19_in_place_encode_refuted`: Converting notes to the file's byte order in place reads the already swapped sizes, so the notes after the first are lost.
* `C20_versions_terminate_refuted`: A chain which goes back to itself: the translation does not end.
* `C21_gnuhash_in_place_refuted`: Missing: to the file's byte order in place. It is false, the code reads the number of bloom words after having swapped it:
* `C21_gnuhash_truncated_refuted`: Nor is the last half bloom word of a truncated section copied.
* `C22_progress_refuted`: The alignment macros clear the upper half of a 64-bit offset. In data of 4 GiB and more the offset then jumps back: the result is not behind the offset passed, the descriptor is said to start before its own header, and an iteration need not end.
* `C22_iteration_terminates_refuted`: In data of 4 GiB and more the iteration does not end.
* `C23_version_refuted`: a record which follows another of a different size is stored but not read: all the records of SHT_GNU_verneed happen to have 16 bytes, but need not start at a multiple of 16
* `C23_phdr_refuted`: a negative number passes the test and memory in front of the table is written
* `C23_xnum_refuted`: a file whose header says PN_XNUM although section 0 gives a smaller number
* `C23_move_refuted`: gelf_getmove and gelf_update_move always fail an assertion
* `C23_auxv_refuted`: gelf_getauxv (data, -1, ...) reads in front of the buffer
* `C23_negative_refuted`: in data of 16 GiB a negative number passes the test
* `C24_loop_refuted`: FINDING: a size of -60 in the first header makes the search for the long names run forever.
* `C24_overread_refuted`: FINDING: that search also reads past the end of a mapped file.
* `C24_retry_refuted`: FINDING: when elf_begin fails because of the size of the member, calling it again succeeds, with a member of 2^64-2 bytes, or fails an assertion.
* `C24_nested_refuted`: FINDING: in an archive that is a member of an archive that is not mapped, members behind the end of the archive are handed out.
* `C25_slash_refuted`: FINDING: names end at the first slash, not at the slash before the newline.
* `C25_nested_refuted`: FINDING: in an archive that is a member of a mapped archive, the table is searched in the outer archive: the long name is not found.
* `C26_oob_refuted`: FINDING: an index whose last name has no NUL is read beyond the end of the mapped file.
* `C26_last_refuted`: FINDING: a well-formed index at the end of the file is read if the file is mapped, and not otherwise.
* `C27_align_refuted`: C27: buffers without an alignment, as elf_newdata leaves them, are all put at offset 0 of the section, and the section is as large as the last one
* `C27_big_refuted`: C27: a 64-bit file of 4 GiB: the next section is put over the ELF header, and the size of the file is that of a small one
* `C27_secalign_refuted`: C27: a 64-bit section with an alignment of 4 GiB is put over the ELF header too
* `C28_buffer_refuted`: C28: a buffer that ends 4 GiB behind the end of its section is accepted, and so is one in front of the section
* `C28_size_refuted`: C28: the size returned for a section at 5 GiB is that of a small file, if another section follows
* `C28_wrap_refuted`: C28: in a 32-bit file a section that ends behind 4 GiB is accepted and not counted
* `C29_phdr_refuted`: Program headers behind a section are overwritten when the gap in which they lie is filled: ELF header [0, 64), section 1 [64, 72), program headers [72, 128), section 2 [136, 144), table from 144 on.
* `C29_table_refuted`: A section header table that is not written itself is overwritten with fill when a section behind it has been changed: section 1 [64, 72), table [72, 264), section 2 [264, 272).
* `C29_gap_refuted`: The gap between two sections without data is not filled, although the whole file is rewritten: section 1, empty, at 64, section 2, empty, at 72.
* `C29_mmap_gap_refuted`: A mapped file with the table before the sections: the gap between the table and the section behind it is not filled (first), and, worse, a gap between two buffers of a section overwrites the buffer before it (second).
* `C29_mmap_data_refuted`: Mapped output: the section header table lies before a section with two buffers; the first buffer is overwritten with fill bytes.
* `C29_member_refuted`: The ELF header of a member of an archive (start offset 1000) is written at the beginning of the archive.
* `C29_newscn_refuted`: A section added to an existing file under a layout chosen by the user: the array of the old section headers is read beyond its end.
* `C30_clone_member_refuted`: elf_clone of an archive member copies the parent pointer without entering the clone in the parent's list: ending the clone runs off the list.
* `C30_clone_outlives_refuted`: If meanwhile the archive has been freed, ending the clone uses freed memory.
* `C30_clone_archive_refuted`: elf_clone of an archive: elf_end passes to free a pointer that malloc never returned.
* `C31_lookup_empty_refuted`: An empty range is returned for its own address although it covers nothing, even when another range covers that address.
* `C32_short_section_refuted`: A section which ends within the unit header: only the first four bytes are checked, the rest is read outside.
* `C32_wrap_refuted`: A unit length that makes the next offset 2^64 - 4: the user's loop then reads outside.
* `C32_types5_refuted`: A unit of version 5 in .debug_types: the type signature is read without a check.
* `C33_count_refuted`: With DW_FORM_implicit_const the constant is taken for the next name: the count can be wrong, and for a declaration accepted before, the walk can leave the section.
* `C34_overread_refuted`: At the end of the unit and the section the first byte of a LEB128 number is read outside; behind DW_FORM_indirect everything is, however many bytes follow the unit: here 5.
* `C34_size_refuted`: Values with an impossible length are accepted: a DW_FORM_block4 of 0xffffffff bytes is taken to be 3 bytes long, an unfinished DW_FORM_block no byte long.
* `C35_range_refuted`: DW_CFA_restore_state brings back the start address of the remembered state: the range reported for a PC also covers PCs with other rules.
* `C35_setloc_refuted`: A DW_CFA_set_loc whose operand cannot be decoded may be taken for the end of the program (read_encoded_value failed without an error code): the PC, which is behind the new location, gets the rules in force before it.
* `C35_offset_refuted`: Offsets that do not fit 61 bits are cut off.
* `C36_overread_refuted`: With nothing behind the instructions a truncated instruction is read outside: the last byte asks for an operand. With one byte behind them DW_CFA_offset_extended_sf still does, so the two bytes above are needed.
* `C36_block_refuted`: A CFA expression accepted by the interpreter may lie outside the section.
* `C37_advance_refuted`: The operand of DW_LNS_advance_pc is cut to 32 bits.
* `C37_line_refuted`: The operand of DW_LNS_advance_line is cut to the size of an int.
* `C37_length_refuted`: The length of an extended opcode is read as one byte although it is a ULEB128 number.
* `C37_discriminator_refuted`: DW_LNE_set_discriminator is refused unless standard opcode 5 has one operand.
* `C37_cache_refuted`: Two units that share a table but not the compilation directory get the same files.
* `C37_bounds_refuted`: A header that ends after its length field makes the reader go outside the section.
* `C38_coalesce_refuted`: A segment that continues its predecessor (next index, same non-null identity, contiguous in memory and file) is merged with it by not being entered at all: its addresses are in no segment, although the documentation promises the predecessor's index.
* `C38_empty_refuted`: An empty segment leaves two markers at one address; a segment reported later between a known address and that one is lost.
* `C38_module_refuted`: Asking for the module as well, once a module lies inside a segment, makes the segment disappear from its start on.
* `C39_order_refuted`: C39: the order of the table decides between a closer weak symbol and a global one
* `C39_dominated_refuted`: C39: the result can be a symbol that another one beats in every respect: closer, as strong and shorter
* `C39_label_refuted`: C39: an absolute symbol below the address hides a label of the address's section: nothing is found
* `C40_compressed_twice_refuted`: A section that is already compressed is not refused: it is compressed again, and decompressing loses SHF_COMPRESSED.
* `C40_alignment_refuted`: In class 32 the alignment is not restored when it was 0 (or larger than the offset of the section).
* `C40_odd_alignment_refuted`: A section whose alignment is no power of two is compressed, but the result can not be decompressed.
* `C40_records_refuted`: A section with two data records: after compression the second record is still in the list, behind the compressed data of both.
* `C40_gnu_forced_refuted`: The GNU format, forced on data that grows: it is stored, but refused when read back.
* `C42_call2_refuted`: The operand of DW_OP_call2 is sign-extended.
* `C42_pointer_refuted`: The offset of DW_OP_implicit_pointer is read as an unsigned number.
* `C42_bounds_refuted`: Malformed blocks are accepted: an operation whose operand lies wholly or partly outside the block is delivered, and at the end of the section bytes outside it are read.
* `C42_cache_refuted`: The cache looks at the place only: a shorter expression at the same place, or the same one with other surroundings, gets the operations of the first request.
* `C43_delete_check_refuted`: CDBL_LIST_DEL announces a check that the element is on the list, but the check passes for every element other than the first one: deleting a node of another list goes through, also with assertions on.
* `C45_asm_end_order_refuted`: A section of more than 960 bytes: the block added last is written first.
* `C46_findcu_refuted`: A unit of unknown version precedes the unit: the first lookup fails, the second succeeds.
* `C47_adjacent_refuted`: Two modules that touch, reported in order: every address above is given to the second.
* `C47_segments_refuted`: A module that begins below the first reported segment and reaches into it: addresses of the module have no module.
* `C48_resume_refuted`: Two modules that coincide with reported segments and a third below them: the positions of the first two are not corrected, and stopping after module 0 resumes with module 0.
* `C49_index_refuted`: The last value of a unit is refused.
* `C49_addrx_refuted`: The index is scaled modulo 2^64: an index far outside the table yields its first entry.
* `C49_strx_refuted`: By index, the place behind the last string is accepted.
* `C50_code_refuted`: The member holding the code has 31 bits.
* `C50_offset_refuted`: The place reported for an attribute specification does not count the bytes of the code, the tag and the children flag: here the first one starts at 3, not at 0.
* `C50_foreign_refuted`: Reading a declaration of another unit's table through this unit changes what its codes mean: the table at 0 declares code 1 with tag 17, the one at 6 code 1 with tag 46.
* `C51_walk_refuted`: A DW_AT_sibling which points to the end of the unit makes dwarf_siblingof fail instead of reporting that there is no sibling.
* `C52_attr_refuted`: The name 0xffffe444 is found in every entry, although no entry has it.
* `C53_overlap_refuted`: With overlapping sequences an address inside one of them is not found.
* `C54_mode_refuted`: FINDING: the mode of a member is octal, but is read as decimal.
* `C55_numbers_refuted`: C55: if the auxiliary table claims to have no local symbol, not even the null one, the first global symbol of the main table has no number
* `C56_mmap_refuted`: C56 fails for a mapped file: bytes between the sections are overwritten with fill although nothing has been changed. Section 1 [128, 138) has its data in memory; the bytes [120, 128) before it belong to no section.
* `C57_start_refuted`: The start of an indexed list is the table's entry plus the table's own offset and is not checked against the section: with 8-byte offsets a table entry such as 2^64 - 32 makes dwarf_ranges read in front of the section.
* `C57_header_refuted`: Without a base attribute the header at the start of the section is consulted; its first four bytes are read even when the section is shorter.
* `C57_formptr_refuted`: In DWARF 2 and 3 any constant form is taken for the list's offset; one above 2^63 gives a pointer in front of the section that passes the check against the section's end.
* `C58_length_refuted`: The length of an expression in .debug_loclists is compared as a signed number: 2^64 - 1 passes, the reported expression runs past the section, and the next offset lies before its start.
* `C58_loop_refuted`: With a length of 2^64 - 13 the entry leads back to itself: dwarf_getlocation_addr never returns when asked for an address outside the entry's range.
* `C59_bare_refuted`: 
* `C59_bare_end_refuted`: FALSE: that the initial instructions of a returned CIE do not start behind its end. Same cause; here the next entry follows, so that the byte read is in the section.
* `C59_wrap_refuted`: FALSE: that an offset outside the section ends the enumeration. off + 4 is computed modulo 2^64, so an offset of 2^64 - 2 passes the test and the bytes in front of the buffer are read. Such offsets come from the CIE pointer of a 64-bit FDE of .debug_frame.
* `C59_personality_refuted`: 
* `C59_fdesize_refuted`: FALSE with 'R' (libdw.h:197-200: "fde_augmentation_data_size gives the number of bytes of augmentation data before the instructions"): 'R' gives the encoding of the two addresses of an FDE and adds no augmentation data, but the size of an encoded address is added.
* `C60_overread_refuted`: 
* `C60_short_refuted`: 
* `C60_top_refuted`: 
* `C60_noerror_refuted`: 
* `C61_deref_size_refuted`: DW_OP_deref_size with 4 bytes in a 64-bit file: the mask is (1 << 32) - 1 computed in int, which is undefined.
* `C61_null_refuted`: DW_OP_deref_size in the expression of the CFA follows a null pointer.
* `C61_overflow_refuted`: A shift by 64, and the negation and the quotient that leave int64_t, are undefined.
* `C61_end_refuted`: A branch to the end of the expression is refused.
* `C61_overread_refuted`: DW_OP_deref_size with one byte fails if only that byte, and not a whole word, can be read.
* `C61_width_refuted`: In a file of class 32 the values have 32 bits: a register that holds -1 is below 0. The library has 64 bits and finds it above.
* `C61_regno_refuted`: The number of a register is cut to 32 bits: DW_OP_regx 2^32 reads register 0.
* `C62_empty_refuted`: An expression without operations means the CFA itself as the place of the register. handle_cfi takes the register as undefined.
* `C62_two_numbers_refuted`: The return address is undefined by its rule (the end of the stack), but the other number for the register keeps its value: that value becomes the pc of the caller.
* `C62_backend_number_refuted`: The other way round: the return address has a value, but the number that the backend uses for the register is undefined: the pc is undefined.
* `C63_endless_refuted`: 
* `C63_no_memory_refuted`: memory_read may be NULL, "in such case dwfl_thread_getframes will return only the initial frame" (libdwfl.h); but the backend's unwinder calls it without a test.
* `C63_unset_refuted`: If set_initial_registers sets neither the pc nor the return address register, the first pc is read from memory that was never written.
* `C64_aarch64_finite_refuted`: 
* `C64_x32_finite_refuted`: The x86-64 backend in a process of class 32: the new stack pointer is compared before it is cut to 32 bits.
* `C65_resume_single_refuted`: When there is one set only, going on at any offset, also at the offset a call returned, fails the assertion that follows the search for the set (dwarf_getpubnames.c:184).
* `C65_resume_later_refuted`: Going on at an offset in the second set or a later one fails the assertion in the search for the set, which always stops at the first set (dwarf_getpubnames.c:178-183).
* `C65_overread_refuted`: The unit offset of a set is checked to leave 3 bytes in .debug_info, and 4 are read.
* `C65_version5_refuted`: The header of a compile unit of DWARF 5 has a byte more: the offset reported for the entry of the unit is not where it is.
* `C66_namespace_refuted`: Not every function that contains the address is found: one inside a namespace is not, because the namespace itself does not contain it.
* `C66_foreign_origin_refuted`: An inlined call of a function described in another unit has no scopes at all, although it contains the address.
* `C67_own_refuted`: The unit's own entry has no scopes, not even itself.
* `C67_union_refuted`: Nor has an entry below a union, although it is in the unit.
* `C68_far_refuted`: 
* `C69_deep_refuted`: 
* `C70_enumeration_refuted`: An array over an enumeration of 2 values, of elements of 4 bytes, has 8 bytes; 0 is answered, since the code looks for the values among the children of the array.
* `C70_empty_refuted`: 
* `C70_overflow_refuted`: The upper bound 2^63 - 1 makes the code overflow a signed number.
* `C70_wrap_refuted`: Sizes of 2^64 and more are reported modulo 2^64, not as an error.
* `C70_data1_refuted`: char a[201]: the upper bound 200 in DW_FORM_data1, as compilers write it, is taken for -56, and no size is answered. The attribute reads as 200 and as -56.
* `C71_opcode0_refuted`: An operand table that defines opcode 0 writes in front of the array of the opcodes.
* `C71_all_defined_refuted`: 
* `C71_many_operands_refuted`: A number of operands of 2^64 - 1 makes the pointer wrap around.
* `C71_header_refuted`: A header that is cut off is read beyond the end of the section: the line offset, the number of definitions, the opcode of a definition.
* `C71_empty_refuted`: A unit of nothing but a header at the end of the section fails an assertion.
* `C71_last_refuted`: If the section ends behind the last entry, without the 0, a token behind that entry is returned, and going on from it fails an assertion.
* `C71_no_section_refuted`: Without a section .debug_macro a null pointer is followed.
* `C71_shared_line_refuted`: 
* `C72_zero_refuted`: "If any of the numbers is zero, no match is performed": with line number 0 not all lines of the file are returned, only one.
* `C72_end_refuted`: The row that ends a sequence has the line of the row before: its address, behind the code, is returned as one of the line.
* `C72_twice_refuted`: Two units with the same line table: every exact line is returned twice.
* `C73_marker_missed_refuted`: There may be a row in the function that is marked as the end of the prologue, and a breakpoint is put on another row: the search for the row of the entry has moved the upper bound below the marked row, and the markers are only looked for below that bound (dwarf_entry_breakpoints.c:84-91).
* `C74_twice_refuted`: 
* `C74_union_refuted`: 
* `C75_bad_origin_refuted`: An inlined entry whose origin cannot be had ends the enumeration with the same result as a callback that stops, and instances behind it are not shown.
* `C75_other_unit_refuted`: 
* `C76_empty_refuted`: A block that has the flag for children and an empty list of them, which is valid, makes the call fail although the variable is in the scope around it.
* `C76_second_refuted`: Two entries of the name in one scope: only the first is compared with the line asked for.
* `C76_file_refuted`: The file "d/a.c" is not taken for "a.c": the beginning of the name is compared, not its end (dwarf_getscopevar.c:67-70).
* `C76_other_file_refuted`: The file "a.c/bcd" is taken for "a.c".
* `C77_overflow_refuted`: A 32-bit signed addition in place overflows for values a file can have (R_386_32 has addends in place): the C code computes an int sum, which is undefined.
* `C77_complete_refuted`: When relocation is not partial a failed call does not take away what it has applied, and the next call applies it again (no caller in the library asks for that).
* `C78_called_refuted`: An address of 0 is not kept: the callback is called each time, contrary to the comment on the cache.
* `C78_common_refuted`: A common symbol nobody else defines is given the st_value of an unrelated symbol: the last one of the other modules, as resolve_symbol reads symbols into the caller's.
* `C78_xindex_refuted`: A symbol of section 65522, which has its index in the extended table, is taken for a common one.
* `C79_discarded_refuted`: A section the callback says is not loaded is in the table at address 0 of the module, and addresses there are said to be in it, also when a loaded section has them.
* `C79_empty_refuted`: Between two sections that touch an empty one is given for an address that is in the second.
* `C79_overlap_refuted`: When sections overlap, an address that is in one may not be found at all.
* `C80_clash_refuted`: a report that fails because another file was reported under this name and these addresses does not leave the modules as they were: the module that was reported first is marked, and the end of the reports removes it although it was reported
* `C81_empty_refuted`: an empty section at the beginning may come to lie before the start of the module
* `C81_moved_refuted`: where the first section is not the lowest, a section may come to lie at an address that is not aligned although it is aligned in the file
* `C81_align_refuted`: an alignment of 0, which means none, is not taken for one of 1: the first segment does not come to lie at the base asked for
* `C81_offline_refuted`: a section aligned to 128 KiB: the next file is put over it
* `C82_checksum_refuted`: a block that the program added to a section read from the file does not change the checksum
* `C83_zsize_refuted`: a header with a size of 2^63 or more gives a negative number other than -1, and a size at the end of the range passes the comparison with the size of the section
* `C83_long_refuted`: a build ID of 2 GiB: its length is returned as a negative number
* `C84_fd_refuted`: a file that does not have the build ID of the module is closed twice: validate closes its descriptor and the caller does it again
* `C84_fd_packed_refuted`: for a compressed file that is found by name, the descriptor given back is already closed
* `C84_root_refuted`: the absolute directories of the path are not searched for a file in the root directory: with the path "/u", the file /u/c.d is not found for /c
* `C84_hidden_refuted`: a wrong file in an earlier directory hides the right one: only the first file of the name by build ID is examined
* `C85_zero_refuted`: 
* `C85_crash_refuted`: Worse, asking for that name, in any file that has a symbol whose hash is a multiple of the table size (here "B", hash 66 in 11 slots), makes nlist compare with the null name of a free slot.
* `C86_mapped_refuted`: A table that lies in the mapped file (every file opened with an _MMAP command, byte order of the host, after elf_getphdr): a table of another size is asked for with realloc of the mapped address.
* `C86_null_refuted`: A file that is not mapped has the section headers in memory only after the first elf_getshdr; removing a table that was read writes through the null pointer of section zero.
* `C86_unread_refuted`: "A COUNT of zero means remove existing table", but a table that nobody has read yet is not removed.
* `C86_order_refuted`: elf_getphdrnum before elf_newehdr reads e_phoff through a null pointer after it has set the error.
* `C86_stale_refuted`: The extended count that a large table leaves in section zero is cleared when the table is removed, but not when a small one replaces it.
* `C87_null_refuted`: elf32_offscn and elf64_offscn accept a null descriptor; gelf_offscn reads its class first.
* `C88_links_refuted`: One file under two names, next to each other: two hard links mapped by one process. The report fails and the modules after it are missing, although no line is wrong.
* `C88_again_refuted`: The same 64-bit process reported twice, when it has no special mapping: the first time the page size is found. The second time the 64-bit reading no longer counts, since the page size is the one known; the 32-bit reading of the same bytes counts, and the segment alignment becomes 0.
* `C89_end_refuted`: The address right after the end of the last range is in no range, and is found all the same.
* `C89_small_refuted`: A last unit whose entries take four bytes or less, such as one entry without attributes and the end of its children: it is left out of the traversal. If an address was looked up before, the traversal ends with an error.
* `C89_twice_refuted`: After that the table of units is gone: the next look-up of an address gives a second entry for a unit that the traversal gave already.
* `C90_order_refuted`: Segments that are not in order overrun the buffer: its size is taken from the last one.
* `C90_header_refuted`: Segments that end before the header does overrun the buffer: the header is stored whatever the size.
* `C90_wrap_refuted`: An offset of the program headers near the end of the 64-bit range wraps around, and they are taken from before the buffer.
* `C90_bss_refuted`: A segment with nothing of the file in it, at an offset that is a multiple of the page size, makes a file unreadable that is all there.
* `C91_short_refuted`: A core file that is cut short and mapped gives less than was asked for, and says that all is well.
* `C91_hole_refuted`: An address that no segment holds, before one that does not start the file, gives bytes of another address.
* `C91_past_refuted`: A core file that is not mapped fills the buffer of the caller with what follows the segment in the file.
* `C91_string_refuted`: A string that is longer than the buffer of the caller is given without its end if the core file is mapped, and not given if it is not.
* `C92_hang_refuted`: A library that waits for more input, as libbz2 does, never ends for a file that is cut short.
* `C92_memory_refuted`: When memory is short the buffer is made bigger by nothing, zlib has no room, and the beginning of the data is given as if it were all.
* `C93_zero_refuted`: A thread with pid 0, as for the idle task in a core of a kernel, ends the walk with success: later threads are not seen.
* `C93_nested_refuted`: 
* `C93_registers_refuted`: A location of several registers, of which the first is set already: it is left alone, but its place in the note is not passed over. The next register gets the number that belongs to the first.
* `C93_word_refuted`: Memory that is in a segment but not in the core, as pages that are left out: the word is what stands in the file after the segment, bytes of another segment, and no byte of it is held at its address.
* `C93_across_refuted`: A word across two segments that follow each other is not read, although the core holds every byte of it.
* `C94_memory32_refuted`: A process of 32 bits with process_vm_readv: a word is given with the next one in its high half; and on a host where the first byte is the most significant, its low half is the next word.
* `C94_frames_refuted`: If the registers of a thread cannot be had after it was attached, nothing detaches it: it stays stopped under trace, and asking for the frames of any thread after that ends the program with a failed check.
* `C95_group_refuted`: The sections of a group are never opened: reading the numbers of the sections goes one past the last, outside of the data of the group, in every group that has any data.
* `C96_wrap_refuted`: Sizes that wrap. A number of items times their size that is 2^64 gives a piece of no bytes; and a request of 2^63 bytes asks malloc for a block of the default size, and gives a piece that is not inside of it. Both without an error.
* `C97_order_refuted`: An allocated section that lies in the file before the first one, and ends where the page of the first one starts, is passed over without a word.
* `C97_offset_refuted`: The offsets are not those of the strings: for a string that goes over two reads it is that of the second part, and bytes that are kept for the next read are counted twice. Above, hello is at 1 and is said to be at 5; here abcd is at 6 and is said to be at 10.
* `C97_lost_refuted`: A string whose end comes with a read of fewer bytes than a string must have is lost, if that is the last of the file; if read then says that it was the last one, an assertion fails.
* `C97_overrun_refuted`: A string that goes over a whole read: memory after the bytes that were read is taken for a part of it.
* `C97_wide_refuted`: With characters of 2 or of 4 bytes, of either byte order, no string of more than one character is ever printed, as the search goes on by one byte and not by one character.
* `C98_twice_refuted`: With two members that are an index only the last is taken away, and the other one, which stays, is not counted in the offsets: the symbol is said to be where that index is.
* `C98_wrap_refuted`: An archive near 4 GB: the size of the index is added to the offset without a look at whether the sum fits, so that the offset wraps although the archive was not too large before.
* `C98_many_refuted`: The number of entries is kept in an int: with 2^31 entries or more no symbol is taken.
* `C99_large_refuted`: A section of 2^63 bytes or more is shown as a negative number, and sizes whose sum is 2^64 or more have a total that is too small.
* `C99_header_refuted`: A section without a header: the program ends with a message, but in the one-line format a null pointer is followed.
* `C100_fddone_refuted`: ELF_C_FDDONE on an archive takes the descriptor away from its handle only: the handles of members go on reading from it, whatever it has become.
* `C100_getaroff_refuted`: Reading a member into memory by itself makes elf_getaroff of it wrong, for every member of every archive: it becomes negative, and elf_getbase of the member becomes 0.

Observed while reading, outside the model or only mentioned in comments:

* elf_getscn (elf, 0) writes under a read lock; elf_rand's error path and
  elf_end of an archive with children return without unlocking; elf_strptr on a
  compressed section takes the read lock recursively (only with USE_LOCKS).
* dwarf_getsrclines after a failure returns -1 without an error code on later
  calls; the line-table cache ignores comp_dir and the address size.
* x86_64_abi_cfi marks register 0 instead of register 3 as same-value;
  encoded_value_size's test for ULEB128 is inverted.
* the search table of .eh_frame_hdr: a pc-relative encoding is resolved against
  the start of the table but with the address of the header; search_table_len is
  the size of the whole header; two-byte encodings are read in host order.
* dwarf_getlocation_addr with llbufs NULL reads listlens[0], which nothing set;
  in the header of an indexed list offset_entry_count * offset_size is a 32-bit
  product.
* nlist keeps the last symbol of a name.
* gnu decompression sets zdata_base but not zdata_size; sizes of 4 GiB and
  more are cut when handed to zlib.
* elf_update: a first data record with d_buf NULL while raw data is present is
  laid out with the raw data but written from NULL.

## Parts of the code not modelled

libdwfl: reporting modules from kernels and core files,
reading /proc to find the threads of a live process.  libebl and backends, except the unwinders of
x86-64, i386, PowerPC 64 and AArch64.  libcpu (disassemblers).
src/ tools, except strings (and of it, files of more than 256 GB), ranlib and size.  libdw:
split DWARF.  libelf: the locks (elf_cntl would wait for its own lock in
__libelf_readall if they were compiled in).

## What seeded/LOG.jsonl leaves out

The script that ran the wrong programs wrote a line only when a theorem failed.
Survivors were added at the end from the outputs that were still there (the
lines with an empty "failed"); survivors of earlier runs may be missing, so the
share of failures in the log is not a kill rate.  Wrong programs for the size,
ELF handle and process id models that were prepared but not run are not in it.

## Assumptions of the theorems

`Print Assumptions` follows every theorem below in its file; it prints "Closed under the global context" for each of them (no axiom, not even of the standard library).

* C01: LebProps.v: uleb128_value, uleb128_roundtrip, uleb128_total, uleb128_reads_only_below_end, uleb128_unterminated, uleb128_unchecked_agrees, uleb128_first_byte_refuted
* C02: LebProps.v: sleb128_value_partial, sleb128_roundtrip_partial, sleb128_total, sleb128_reads_only_below_end, sleb128_every_int64_refuted
* C03: LebProps.v: unaligned_read, unaligned_signed_read, unaligned_read_inc_partial, read_3ubyte_inc_refuted
* C04: AsmProps.v: uleb128_appends_encoding, uleb128_reads_back, sleb128_partial, sleb128_refuted
* C05: AsmProps.v: addint_partial, addint_nobits, addint_not_stored_refuted
* C06: HashProps.v: elf_hash_is_abi_hash, elf_hash_28_bits
* C07: HashProps.v: gnu_hash
* C08: HashProps.v: crc32_is_ieee, crc32_incremental, crc32_file_sound, crc32_file_complete
* C09: PrimeProps.v: next_prime_is_least_prime_partial, is_prime_exact, next_prime_small_arguments_refuted
* C10: HtabProps.v: dynamic_hash_is_finite_map, first_insert_wins, allocation_failure_refuted, iteration_order_refuted
* C11: HtabProps.v: fixed_hash_is_finite_map_partial, hash_zero_refuted
* C12: StrtabProps.v: strings_at_their_offsets, size_is_maximal_strings, one_entry_per_string, entries_never_overlap
* C13: ScnProps.v: sections_dense, sections_stable, newscn_appends, newscn_no_block_partial, newscn_after_failures_refuted, newscn_no_header_refuted, newscn_readonly_empty_refuted
* C14: OpenProps.v: open_safe_partial, open_safe_refuted, sections_decoded, shndx, memory_partial, open_fd
* C15: OpenProps.v: shdrnum, shstrndx_partial, shstrndx_memory_refuted, shstrndx_member_refuted, phdrnum_partial, phdrnum_inside, phdrnum_refuted
* C16: DataProps.v: strptr_safe_partial, strptr_exact_partial, strptr_blocks_partial, strptr_gap_refuted, strptr_new_refuted, strptr_enlarged_refuted, strptr_decompressed_refuted
* C17: DataProps.v: history_partial, history_nomem_partial, getdata_nomem_refuted, rawchunk_partial, rawchunk_refuted
* C18: XlateProps.v: translation, roundtrip, rejects, record_sizes, compression_header, move_refuted, overlap_refuted
* C19: XlateProps.v: notes_converted, in_place_safe, copy_safe_partial, overflow_refuted, in_place_encode_refuted
* C20: XlateProps.v: versions_safe_partial, versions_converted, versions_roundtrip, versions_terminate_refuted
* C21: XlateProps.v: gnuhash_safe, gnuhash_converted, gnuhash_roundtrip_partial, gnuhash_in_place_refuted, gnuhash_truncated_refuted
* C22: NoteProps.v: getnote_safe, progress_partial, iteration_terminates_partial, iteration_exact, progress_refuted, iteration_terminates_refuted
* C23: GelfProps.v: roundtrip, others, accept, index_partial, write_back, members, sizes, version_partial, version_refuted, header, phdr_partial, phdr_refuted, xnum_refuted, symshndx, move_refuted, auxv_refuted, negative_refuted
* C24: ArProps.v: inside_partial, walk_partial, loop_refuted, overread_refuted, retry_refuted, nested_refuted
* C25: ArProps.v: terminated, names_partial, slash_refuted, nested_refuted
* C26: ArProps.v: exact_partial, safe_partial, oob_refuted, last_refuted
* C27: LayProps.v: layout_partial, disjoint_partial, succeeds_partial, align_refuted, big_refuted, secalign_refuted
* C28: LayProps.v: fits_partial, buffer_refuted, size_refuted, wrap_refuted
* C29: WrProps.v: written_partial, mmap_partial, determined_partial, phdr_refuted, table_refuted, gap_refuted, mmap_gap_refuted, mmap_data_refuted, member_refuted, newscn_refuted
* C30: RefProps.v: lifetime_partial, clone_member_refuted, clone_outlives_refuted, clone_archive_refuted
* C31: ArangeProps.v: getaranges, safe, lookup, lookup_empty_refuted
* C32: UnitProps.v: unit_safe_partial, unit_header, progress, iteration_terminates, short_section_refuted, wrap_refuted, types5_refuted
* C33: AbbrevProps.v: walks, history, decoding_safe, count_partial, count_refuted
* C34: FormProps.v: size_partial, inside, ends, overread_partial, overread_refuted, size_refuted, exact_partial
* C35: CfiProps.v: row, range_partial, range_refuted, setloc_refuted, offset_refuted
* C36: CfiProps.v: overread_partial, initial_partial, well_formed, overread_refuted, block_refuted
* C37: LineProps.v: table_partial, stable, order, advance_refuted, line_refuted, length_refuted, discriminator_refuted, cache_refuted, bounds_refuted, safe_partial
* C38: SegProps.v: addrsegment_partial, sorted_partial, coalesce_refuted, empty_refuted, module_refuted
* C39: SymProps.v: found, sized_first, closest_partial, order_partial, unsized, label_partial, order_refuted, dominated_refuted, label_refuted
* C40: DataProps.v: roundtrip_partial, gnu_roundtrip_partial, corrupt_rejected, compressed_twice_refuted, alignment_refuted, odd_alignment_refuted, records_refuted, gnu_forced_refuted
* C41: FlagProps.v: flag_call, flag_history
* C42: LocProps.v: decode_partial, empty, history_partial, stable, safe_partial, call2_refuted, pointer_refuted, bounds_refuted, cache_refuted
* C43: ListProps.v: cdbl_history, cdbl_delete, csngl_history, sngl_history, delete_check_refuted
* C44: AsmProps.v: section_content_partial, align
* C45: AsmProps.v: asm_end_content_partial, asm_end_order_refuted
* C46: UnitProps.v: findcu_partial, units_disjoint, findcu_refuted
* C47: SegProps.v: addrmodule_partial, adjacent_refuted, segments_refuted
* C48: SegProps.v: resume_list, resume_table_partial, resume_refuted
* C49: ReadProps.v: udata, sdata, ref, block, flag, index_partial, index_refuted, addr, addrx_partial, addrx_refuted, string, strp, strx_partial, strx_refuted
* C50: AbbrevProps.v: decode_partial, children, code_refuted, offset_refuted, lookup_partial, foreign_refuted
* C51: DieProps.v: child, sibling, walk_partial, walk_refuted
* C52: DieProps.v: attr_partial, hasattr, tag, getattrs, attr_refuted
* C53: LineProps.v: line, any, program_partial, overlap_refuted
* C54: ArProps.v: members_partial, rand, mode_refuted
* C55: SymProps.v: numbers, numbers_refuted
* C56: WrProps.v: clean, again, mmap_refuted, mmap_partial
* C57: RngProps.v: contiguous, ranges, none, haspc, walk_partial, start_refuted, header_refuted, formptr_refuted
* C58: RngProps.v: list, addr, single, walk_partial, length_refuted, loop_refuted
* C59: NcfiProps.v: entry, walk, progress, safe_partial, bare_refuted, bare_end_refuted, wrap_refuted, personality_refuted, fdesize_partial, fdesize_refuted
* C60: FdeProps.v: lookup, header, overread_refuted, short_refuted, top_refuted, noerror_refuted; FrameProps.v: frame
* C61: EvalProps.v: eval_partial, sound, cfa_partial, defined, unique, deref_size_refuted, null_refuted, overflow_refuted, end_refuted, overread_refuted, width_refuted, regno_refuted
* C62: UnwindProps.v: registers_partial, sound, return_address, pc_partial, no_register, signal, defined, none, empty_refuted, two_numbers_refuted, backend_number_refuted
* C63: WalkProps.v: frames, detached, determined, refused, step_partial, endless_refuted, no_memory_refuted, unset_refuted
* C64: WalkProps.v: x86_64, i386, ppc64, aarch64, finite_partial, aarch64_finite_refuted, x32_finite_refuted
* C65: PubProps.v: enumeration_partial, resume_partial, resume_single_refuted, resume_later_refuted, any_bytes_partial, overread_refuted, nothing, unit_entry_partial, version5_refuted
* C66: ScopeProps.v: nothing, scopes, inlined_partial, error, defined, ends, namespace_refuted, foreign_origin_refuted
* C67: ScopeProps.v: scopes_partial, defined, ends, own_refuted, union_refuted
* C68: SizeProps.v: inherited_partial, circle, far_refuted
* C69: SizeProps.v: peel_partial, sound, deep_refuted
* C70: SizeProps.v: size_partial, sound_partial, defined_partial, ends, enumeration_refuted, empty_refuted, overflow_refuted, wrap_refuted, data1_refuted
* C71: MacProps.v: call_partial, every_entry_partial, offset_partial, history, ff_refused_partial, macinfo_partial, any_bytes_partial, opcode0_refuted, all_defined_refuted, many_operands_refuted, header_refuted, empty_refuted, last_refuted, no_section_refuted, shared_line_refuted
* C72: SrcProps.v: lines_partial, bad_file, zero_refuted, end_refuted, twice_refuted
* C73: BkptProps.v: single_partial, list_partial, inside, no_lines, marker_missed_refuted
* C74: FuncProps.v: functions_partial, resume, once_partial, only, unit, twice_refuted, union_refuted
* C75: FuncProps.v: instances_partial, only, inline, bad_origin_refuted, other_unit_refuted
* C76: FuncProps.v: found_partial, defined, empty_refuted, second_refuted, file_refuted, other_file_refuted
* C77: RelocProps.v: one_partial, section_partial, once, frame, headers_partial, machine, overflow_refuted, complete_refuted
* C78: RelocProps.v: history, called_refuted, defined, undefined, common_partial, common_refuted, xindex_refuted
* C79: DereProps.v: table, relocs, inside_partial, limit_partial, sound, other, discarded_refuted, empty_refuted, overlap_refuted
* C80: ReportProps.v: always, report, cycle, add, stopped, end, clash_refuted, clash_partial
* C81: OffProps.v: layout, sections, empty_refuted, moved, moved_refuted, segments, align_refuted, offline_partial, offline_refuted
* C82: CrcProps.v: crc, pieces, detect, file, checksum_partial, checksum_refuted, strip
* C83: IdProps.v: debuglink, altlink, zsize_partial, zsize_refuted, build_id, build_id_segments, id_safe_partial, long_refuted
* C84: FindProps.v: path, id_name, by_id, sound, fd_partial, fd_refuted, fd_packed_refuted, root_refuted, hidden_refuted, order, text
* C85: NlProps.v: answers_partial, fail, missing, complete, zero_refuted, crash_refuted
* C86: PhdrProps.v: history, new_partial, remove_partial, mapped_refuted, null_refuted, unread_refuted, order_refuted, stale_refuted
* C87: OsProps.v: offscn, unique, gelf, null_refuted
* C88: ProcProps.v: line, maps, unique, sorted, bad_line, success, links_refuted, auxv, auxv_error, again_refuted
* C89: LazyProps.v: history_partial, range, end_refuted, small_refuted, twice_refuted
* C90: RemProps.v: image, safe_partial, order_refuted, header_refuted, wrap_refuted, bss_refuted, reject
* C91: CoreProps.v: bytes_partial, found, none, string_partial, short_refuted, hole_refuted, past_refuted, string_refuted
* C92: ZipProps.v: stream_partial, ends_partial, hang_refuted, gzip_partial, gzip_whole, memory_refuted, formats, image, open
* C93: ThrProps.v: threads_partial, ends_partial, one_partial, process, zero_refuted, nested_refuted, registers_partial, registers_refuted, word_partial, word_none, word_refuted, across_refuted
* C94: PidProps.v: memory64, memory32, memory32_partial, memory32_refuted, attach, frames_partial, frames_refuted
* C95: BeginProps.v: sections, opens, group_refuted
* C96: ArenaProps.v: memory_partial, served_partial, wrap_refuted
* C97: StringsProps.v: character, piece, sections_partial, order_refuted, reads_partial, offset_refuted, lost_refuted, overrun_refuted, wide_refuted
* C98: RanProps.v: index_partial, none, twice_refuted, wrap_refuted; RsymProps.v: symbols_partial, many_refuted
* C99: SzProps.v: file_partial, totals_partial, large_refuted, header_refuted
* C100: CntlProps.v: _fdread_partial, _result, _fdread_fails, _fddone_refuted, _rawfile_partial, _getaroff_partial, _getaroff_refuted
