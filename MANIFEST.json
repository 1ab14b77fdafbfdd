{
 "claims": [
  {
   "property": "C01",
   "status": "partial",
   "theorems": [
    "C01_uleb128_value",
    "C01_uleb128_roundtrip",
    "C01_uleb128_total",
    "C01_uleb128_reads_only_below_end",
    "C01_uleb128_unterminated",
    "C01_uleb128_unchecked_agrees",
    "C01_uleb128_first_byte_refuted"
   ],
   "note": "[C01_uleb128_first_byte_refuted] The cursor being at the end pointer is not caught: the first byte is read before any comparison with the end (finding F01)."
  },
  {
   "property": "C02",
   "status": "partial",
   "theorems": [
    "C02_sleb128_value_partial",
    "C02_sleb128_roundtrip_partial",
    "C02_sleb128_total",
    "C02_sleb128_reads_only_below_end",
    "C02_sleb128_every_int64_refuted"
   ],
   "note": "[C02_sleb128_value_partial] Signed: every complete number of at most nine bytes has its exact value. [C02_sleb128_roundtrip_partial] Hence every value of 63 bits round trips. Missing for the full C02: the values outside [-2^62, 2^62), whose shortest encoding has ten bytes. [C02_sleb128_every_int64_refuted] The full statement is false: the decoder looks at nine bytes only, so a signed 64-bit number with a ten byte encoding is misread (finding F02)."
  },
  {
   "property": "C03",
   "status": "partial",
   "theorems": [
    "C03_unaligned_read",
    "C03_unaligned_signed_read",
    "C03_unaligned_read_inc_partial",
    "C03_read_3ubyte_inc_refuted"
   ],
   "note": "[C03_unaligned_read_inc_partial] The reads that advance a cursor deliver the same value and move the cursor by exactly the width, except for the three byte one. [C03_read_3ubyte_inc_refuted] The cursor-advancing three byte read uses the two byte reader: it does not return the three byte integer (finding F03)."
  },
  {
   "property": "C04",
   "status": "partial",
   "theorems": [
    "C04_uleb128_appends_encoding",
    "C04_uleb128_reads_back",
    "C04_sleb128_partial",
    "C04_sleb128_refuted"
   ],
   "note": "[C04_sleb128_partial] asm_addsleb128 appends a complete LEB128 number of k bytes, k least with -128^k <= n < 128^k; it decodes to n exactly if n fits k signed groups. _partial: the other half of the numbers is encoded wrongly. [C04_sleb128_refuted] 64 is emitted as 0x40, which every reader decodes as -64."
  },
  {
   "property": "C05",
   "status": "partial",
   "theorems": [
    "C05_addint_partial",
    "C05_addint_nobits",
    "C05_addint_not_stored_refuted"
   ],
   "note": "[C05_addint_partial] What is true of asm_addint*: room for the integer is appended, earlier content is unchanged, the offset advances. _partial: the bytes appended to a section with content are not the integer (next theorem). [C05_addint_not_stored_refuted] In every section that has content the integer is never stored: the appended bytes are whatever malloc returned."
  },
  {
   "property": "C06",
   "status": "proved",
   "theorems": [
    "C06_elf_hash_is_abi_hash",
    "C06_elf_hash_28_bits"
   ],
   "note": ""
  },
  {
   "property": "C07",
   "status": "proved",
   "theorems": [
    "C07_gnu_hash"
   ],
   "note": ""
  },
  {
   "property": "C08",
   "status": "proved",
   "theorems": [
    "C08_crc32_is_ieee",
    "C08_crc32_incremental",
    "C08_crc32_file_sound",
    "C08_crc32_file_complete"
   ],
   "note": ""
  },
  {
   "property": "C09",
   "status": "partial",
   "theorems": [
    "C09_next_prime_is_least_prime_partial",
    "C09_is_prime_exact",
    "C09_next_prime_small_arguments_refuted"
   ],
   "note": "[C09_next_prime_is_least_prime_partial] For every n >= 4 below some 64-bit prime p (and p - n + 1 loop steps) the result is the least prime >= n. _partial: false for n < 4, see below. [C09_next_prime_small_arguments_refuted] Below 4 the function is wrong: it answers 1 for 0 and 1, and skips the primes 2 and 3."
  },
  {
   "property": "C10",
   "status": "partial",
   "theorems": [
    "C10_dynamic_hash_is_finite_map",
    "C10_first_insert_wins",
    "C10_allocation_failure_refuted",
    "C10_iteration_order_refuted"
   ],
   "note": "[C10_allocation_failure_refuted] If growing the table fails for lack of memory, the old array is kept with the new size: the insert reports success, and a later lookup reads outside the array. [C10_iteration_order_refuted] dynamicsizehash.c:138-139 promises that growing maintains the iteration order; in the REVERSE variant (libasm's symbol table) each growth reverses it: four inserts iterate last-to-first, a fifth one first-to-last."
  },
  {
   "property": "C11",
   "status": "partial",
   "theorems": [
    "C11_fixed_hash_is_finite_map_partial",
    "C11_hash_zero_refuted"
   ],
   "note": "[C11_fixed_hash_is_finite_map_partial] C11. A table created for n elements answers every history with at most n stores like the finite map, provided no hash value is 0. _partial: see the refutation for hash value 0. [C11_hash_zero_refuted] Hash value 0 is the mark of an empty slot: an entry stored under it is not found again. There are names with hash value 0."
  },
  {
   "property": "C12",
   "status": "proved",
   "theorems": [
    "C12_strings_at_their_offsets",
    "C12_size_is_maximal_strings",
    "C12_one_entry_per_string",
    "C12_entries_never_overlap"
   ],
   "note": ""
  },
  {
   "property": "C13",
   "status": "partial",
   "theorems": [
    "C13_sections_dense",
    "C13_sections_stable",
    "C13_newscn_appends",
    "C13_newscn_no_block_partial",
    "C13_newscn_after_failures_refuted",
    "C13_newscn_no_header_refuted",
    "C13_newscn_readonly_empty_refuted"
   ],
   "note": "[C13_newscn_no_block_partial] Out of memory. If the block cannot be allocated NULL is returned and the sections are unchanged ... [C13_newscn_after_failures_refuted] After 30 failed allocations the next success writes outside the new block. [C13_newscn_no_header_refuted] If the section header cannot be allocated, a non-NULL section without a header is returned. [C13_newscn_readonly_empty_refuted] A descriptor opened read-only on a file without sections has no slot at all (max = 0): adding a section writes out of bounds."
  },
  {
   "property": "C14",
   "status": "partial",
   "theorems": [
    "C14_open_safe_partial",
    "C14_open_safe_refuted",
    "C14_sections_decoded",
    "C14_shndx",
    "C14_memory_partial",
    "C14_open_fd"
   ],
   "note": "[C14_open_safe_partial] C14: opening a mapped file. Missing for the full property: the ELF header itself must be inside the image; see C14_open_safe_refuted. [C14_open_safe_refuted] An image of 16 to 51 (63) bytes which starts like an ELF file: the header is read beyond its end. [C14_memory_partial] C14 for elf_memory and for reading through a file descriptor"
  },
  {
   "property": "C15",
   "status": "partial",
   "theorems": [
    "C15_shdrnum",
    "C15_shstrndx_partial",
    "C15_shstrndx_memory_refuted",
    "C15_shstrndx_member_refuted",
    "C15_phdrnum_partial",
    "C15_phdrnum_inside",
    "C15_phdrnum_refuted"
   ],
   "note": "[C15_shstrndx_partial] C15, string table index: for a mapped file in host byte order, or when the file can be read through its descriptor and starts at offset 0. Missing: a memory image in the other byte order, and an archive member, see below. [C15_shstrndx_memory_refuted] An image in memory in the other byte order: elf_getshdrstrndx fails. [C15_shstrndx_member_refuted] A member of an archive: section 0 is looked for at the wrong place of the archive. [C15_phdrnum_partial] C15, program header count. Missing: a file with PN_XNUM whose section headers have not been loaded (read through a descriptor, other byte order, ELF_C_READ_MMAP). [C15_phdrnum_refuted] PN_XNUM and section headers which have not been read: 65535, cut to the room in the file, is returned."
  },
  {
   "property": "C16",
   "status": "partial",
   "theorems": [
    "C16_strptr_safe_partial",
    "C16_strptr_exact_partial",
    "C16_strptr_blocks_partial",
    "C16_strptr_gap_refuted",
    "C16_strptr_new_refuted",
    "C16_strptr_enlarged_refuted",
    "C16_strptr_decompressed_refuted"
   ],
   "note": "[C16_strptr_safe_partial] elf_strptr on a section of an opened file, after any calls on the section, also when memory runs out in between: no invalid access, and a result is the position asked for in a buffer with a NUL at or behind it; if the section is not compressed, the buffer is the section's bytes in the file. [C16_strptr_exact_partial] Exactly which offsets succeed, while memory lasts. [C16_strptr_blocks_partial] A string section given as a list of data records (elf_newdata). [C16_strptr_gap_refuted] Between the records no error is set although NULL is returned. [C16_strptr_new_refuted] A new section without data, whose header has a size: NULL is dereferenced. [C16_strptr_enlarged_refuted] The size is taken from the header at every call: after the user enlarged it, memory behind the section's buffer is searched. [C16_strptr_decompressed_refuted] After a section was decompressed and a block added to it, the offset is looked for in the decompressed data although it lies in the new block: memory behind the decompressed data is read."
  },
  {
   "property": "C17",
   "status": "partial",
   "theorems": [
    "C17_history_partial",
    "C17_history_nomem_partial",
    "C17_getdata_nomem_refuted",
    "C17_rawchunk_partial",
    "C17_rawchunk_refuted"
   ],
   "note": "[C17_history_partial] Any sequence of elf_rawdata, elf_getdata and elf_strptr calls on a section of an opened file, while memory lasts: each call delivers exactly what the section header says (good: the bytes of the file, or those bytes in host order, with the header's size and type), or fails with an error because the header does not name whole records inside the file. Not covered: contents of variable layout in a file of foreign byte order (notes, version definitions, GNU hash tables of class 64), see C19-C21 for their conversion, and failing allocations (below). [C17_history_nomem_partial] When allocations may fail as well, every call still delivers the section's own bytes or an error - except that elf_getdata may deliver an empty record. [C17_getdata_nomem_refuted] The exception is real: memory runs out while a section is converted, and elf_getdata succeeds with an empty record; so it does ever after. [C17_rawchunk_partial] elf_getdata_rawchunk: exactly the requested range, or an error. [C17_rawchunk_refuted] If the size is no multiple of the record size, part of what is delivered from a mapped file of foreign byte order is uninitialised memory."
  },
  {
   "property": "C18",
   "status": "partial",
   "theorems": [
    "C18_translation",
    "C18_roundtrip",
    "C18_rejects",
    "C18_record_sizes",
    "C18_compression_header",
    "C18_move_refuted",
    "C18_overlap_refuted"
   ],
   "note": "[C18_move_refuted] Refuted for the move table: the record size used for the length check is 28 in both classes, the structures have 24 and 32 bytes. So one record is refused, [C18_overlap_refuted] Refuted for overlapping buffers, which elf32_xlatetom.c:59-62 promises to handle: a structure type with the destination inside the source."
  },
  {
   "property": "C19",
   "status": "partial",
   "theorems": [
    "C19_notes_converted",
    "C19_in_place_safe",
    "C19_copy_safe_partial",
    "C19_overflow_refuted",
    "C19_in_place_encode_refuted"
   ],
   "note": "[C19_copy_safe_partial] Arbitrary content, copied: as long as no header wraps around to size 8. [C19_overflow_refuted] The missing part is false: a name size of 0xfffffffc makes the padded size of the note wrap around, and the payload copy runs far out of the buffer. [C19_in_place_encode_refuted] Converting notes to the file's byte order in place reads the already swapped sizes, so the notes after the first are lost."
  },
  {
   "property": "C20",
   "status": "partial",
   "theorems": [
    "C20_versions_safe_partial",
    "C20_versions_converted",
    "C20_versions_roundtrip",
    "C20_versions_terminate_refuted"
   ],
   "note": "[C20_versions_safe_partial] Arbitrary content: encoding, and decoding in place, end and stay inside. [C20_versions_terminate_refuted] A chain which goes back to itself: the translation does not end."
  },
  {
   "property": "C21",
   "status": "partial",
   "theorems": [
    "C21_gnuhash_safe",
    "C21_gnuhash_converted",
    "C21_gnuhash_roundtrip_partial",
    "C21_gnuhash_in_place_refuted",
    "C21_gnuhash_truncated_refuted"
   ],
   "note": "[C21_gnuhash_roundtrip_partial] There through another buffer, and back into any third one or in place. [C21_gnuhash_in_place_refuted] Missing: to the file's byte order in place. It is false, the code reads the number of bloom words after having swapped it: [C21_gnuhash_truncated_refuted] Nor is the last half bloom word of a truncated section copied."
  },
  {
   "property": "C22",
   "status": "partial",
   "theorems": [
    "C22_getnote_safe",
    "C22_progress_partial",
    "C22_iteration_terminates_partial",
    "C22_iteration_exact",
    "C22_progress_refuted",
    "C22_iteration_terminates_refuted"
   ],
   "note": "[C22_progress_partial] For data of less than 4 GiB (8 bytes less): a non-zero result lies behind the offset passed and inside the data; the header reported is the one at the offset, the name follows it, the descriptor follows the name at the next aligned offset, and the result is the end of the padded descriptor. Missing for the whole claim: larger data, see C22_progress_refuted. [C22_iteration_terminates_partial] Iterating from any offset ends after at most size/12 notes. [C22_progress_refuted] The alignment macros clear the upper half of a 64-bit offset. In data of 4 GiB and more the offset then jumps back: the result is not behind the offset passed, the descriptor is said to start before its own header, and an iteration need not end. [C22_iteration_terminates_refuted] In data of 4 GiB and more the iteration does not end."
  },
  {
   "property": "C23",
   "status": "partial",
   "theorems": [
    "C23_roundtrip",
    "C23_others",
    "C23_accept",
    "C23_index_partial",
    "C23_write_back",
    "C23_members",
    "C23_sizes",
    "C23_version_partial",
    "C23_version_refuted",
    "C23_header",
    "C23_phdr_partial",
    "C23_phdr_refuted",
    "C23_xnum_refuted",
    "C23_symshndx",
    "C23_move_refuted",
    "C23_auxv_refuted",
    "C23_negative_refuted"
   ],
   "note": "[C23_index_partial] reading: exactly the records inside the data. (Not for a negative number and gelf_getauxv: C23_auxv_refuted.) [C23_version_partial] Version information: reading needs an offset which is a multiple of 4, or of 16 for the records of SHT_GNU_verneed (C23_version_refuted). [C23_version_refuted] a record which follows another of a different size is stored but not read: all the records of SHT_GNU_verneed happen to have 16 bytes, but need not start at a multiple of 16 [C23_phdr_partial] program headers: numbers which are not negative, and a header which says how many there are (C23_phdr_refuted, C23_xnum_refuted) [C23_phdr_refuted] a negative number passes the test and memory in front of the table is written [C23_xnum_refuted] a file whose header says PN_XNUM although section 0 gives a smaller number [C23_move_refuted] gelf_getmove and gelf_update_move always fail an assertion [C23_auxv_refuted] gelf_getauxv (data, -1, ...) reads in front of the buffer [C23_negative_refuted] in data of 16 GiB a negative number passes the test"
  },
  {
   "property": "C24",
   "status": "partial",
   "theorems": [
    "C24_inside_partial",
    "C24_walk_partial",
    "C24_loop_refuted",
    "C24_overread_refuted",
    "C24_retry_refuted",
    "C24_nested_refuted"
   ],
   "note": "[C24_inside_partial] A member handed out by elf_begin lies in the archive, whatever elf_next, elf_rand, elf_begin and elf_getarhdr were called before, as long as the calls of elf_begin and elf_getarhdr succeeded and the table of long names can be searched. [C24_walk_partial] The loop over an archive ends, and gives members inside the archive, one after the other. [C24_loop_refuted] FINDING: a size of -60 in the first header makes the search for the long names run forever. [C24_overread_refuted] FINDING: that search also reads past the end of a mapped file. [C24_retry_refuted] FINDING: when elf_begin fails because of the size of the member, calling it again succeeds, with a member of 2^64-2 bytes, or fails an assertion. [C24_nested_refuted] FINDING: in an archive that is a member of an archive that is not mapped, members behind the end of the archive are handed out."
  },
  {
   "property": "C25",
   "status": "partial",
   "theorems": [
    "C25_terminated",
    "C25_names_partial",
    "C25_slash_refuted",
    "C25_nested_refuted"
   ],
   "note": "[C25_names_partial] A long name is resolved: the name of a member is the text in the table from the index in its header to the next slash. [C25_slash_refuted] FINDING: names end at the first slash, not at the slash before the newline. [C25_nested_refuted] FINDING: in an archive that is a member of a mapped archive, the table is searched in the outer archive: the long name is not found."
  },
  {
   "property": "C26",
   "status": "partial",
   "theorems": [
    "C26_exact_partial",
    "C26_safe_partial",
    "C26_oob_refuted",
    "C26_last_refuted"
   ],
   "note": "[C26_exact_partial] elf_getarsym gives the entries of a well-formed index, with offset, name and hash, and the entry with the null name. If the file is not mapped, w more bytes must follow the index. [C26_safe_partial] For any contents it gives a list or an error if the strings that follow the offsets contain a NUL for each symbol and 8 bytes follow the header. [C26_oob_refuted] FINDING: an index whose last name has no NUL is read beyond the end of the mapped file. [C26_last_refuted] FINDING: a well-formed index at the end of the file is read if the file is mapped, and not otherwise."
  },
  {
   "property": "C27",
   "status": "partial",
   "theorems": [
    "C27_layout_partial",
    "C27_disjoint_partial",
    "C27_succeeds_partial",
    "C27_align_refuted",
    "C27_big_refuted",
    "C27_secalign_refuted"
   ],
   "note": "[C27_layout_partial] C27: sizes below 4 GiB: headers, sections and the section header table follow one another, each at the first multiple of its alignment behind the previous one; so do the buffers within their section, whose alignment suits all of them; and nothing else changes. [C27_disjoint_partial] C27: hence no two of them overlap, all are inside the file, and sections and buffers are aligned in the file. [C27_succeeds_partial] C27: and it succeeds, for versions and alignments as they should be [C27_align_refuted] C27: buffers without an alignment, as elf_newdata leaves them, are all put at offset 0 of the section, and the section is as large as the last one [C27_big_refuted] C27: a 64-bit file of 4 GiB: the next section is put over the ELF header, and the size of the file is that of a small one [C27_secalign_refuted] C27: a 64-bit section with an alignment of 4 GiB is put over the ELF header too"
  },
  {
   "property": "C28",
   "status": "partial",
   "theorems": [
    "C28_fits_partial",
    "C28_buffer_refuted",
    "C28_size_refuted",
    "C28_wrap_refuted"
   ],
   "note": "[C28_fits_partial] C28: with everything below 4 GiB, elf_update accepts the user's layout only if every buffer lies inside its section's size with a power of two as alignment that the section's alignment covers; it leaves the layout alone, and the size it returns is the end of the last of headers, program headers, sections with contents and section headers. [C28_buffer_refuted] C28: a buffer that ends 4 GiB behind the end of its section is accepted, and so is one in front of the section [C28_size_refuted] C28: the size returned for a section at 5 GiB is that of a small file, if another section follows [C28_wrap_refuted] C28: in a 32-bit file a section that ends behind 4 GiB is accepted and not counted"
  },
  {
   "property": "C29",
   "status": "partial",
   "theorems": [
    "C29_written_partial",
    "C29_mmap_partial",
    "C29_determined_partial",
    "C29_phdr_refuted",
    "C29_table_refuted",
    "C29_gap_refuted",
    "C29_mmap_gap_refuted",
    "C29_mmap_data_refuted",
    "C29_member_refuted",
    "C29_newscn_refuted"
   ],
   "note": "[C29_written_partial] C29. Writing (with pwrite) puts every changed header, program header table, data block and section header at its place, in the byte order of the file, leaves the unchanged ones alone, fills the gaps with the fill byte, and touches nothing behind the end of the file. Missing: files inside archives (start offset 0 only), layouts where the program headers lie behind a section, and the layouts of the refutations below. [C29_mmap_partial] C29. The same for a mapped file, also inside an archive, when the section header table comes last and the mapping is large enough. [C29_determined_partial] C29. When everything is rewritten, each byte of the file is determined: two files that differed before are the same afterwards, up to the end. [C29_phdr_refuted] Program headers behind a section are overwritten when the gap in which they lie is filled: ELF header [0, 64), section 1 [64, 72), program headers [72, 128), section 2 [136, 144), table from 144 on. [C29_table_refuted] A section header table that is not written itself is overwritten with fill when a section behind it has been changed: section 1 [64, 72), table [72, 264), section 2 [264, 272). [C29_gap_refuted] The gap between two sections without data is not filled, although the whole file is rewritten: section 1, empty, at 64, section 2, empty, at 72. [C29_mmap_gap_refuted] A mapped file with the table before the sections: the gap between the table and the section behind it is not filled (first), and, worse, a gap between two buffers of a section overwrites the buffer before it (second). [C29_mmap_data_refuted] Mapped output: the section header table lies before a section with two buffers; the first buffer is overwritten with fill bytes. [C29_member_refuted] The ELF header of a member of an archive (start offset 1000) is written at the beginning of the archive. [C29_newscn_refuted] A section added to an existing file under a layout chosen by the user: the array of the old section headers is read beyond its end."
  },
  {
   "property": "C30",
   "status": "partial",
   "theorems": [
    "C30_lifetime_partial",
    "C30_clone_member_refuted",
    "C30_clone_outlives_refuted",
    "C30_clone_archive_refuted"
   ],
   "note": "[C30_lifetime_partial] For every sequence of elf_begin, elf_clone and elf_end calls in which the program uses only descriptors it still holds handles of: no call touches a freed descriptor, frees one twice or runs off a list; every call returns what it should (elf_end the number of handles left); and afterwards exactly the descriptors still needed - a handle is held, or a member opened from it is needed - are allocated. As this holds after each call of a history, each descriptor is freed by the call that makes it superfluous, and an archive outlives its open members. Missing for the whole claim: cloning archive members and archives (refuted below). [C30_clone_member_refuted] elf_clone of an archive member copies the parent pointer without entering the clone in the parent's list: ending the clone runs off the list. [C30_clone_outlives_refuted] If meanwhile the archive has been freed, ending the clone uses freed memory. [C30_clone_archive_refuted] elf_clone of an archive: elf_end passes to free a pointer that malloc never returned."
  },
  {
   "property": "C31",
   "status": "partial",
   "theorems": [
    "C31_getaranges",
    "C31_safe",
    "C31_lookup",
    "C31_lookup_empty_refuted"
   ],
   "note": "[C31_lookup_empty_refuted] An empty range is returned for its own address although it covers nothing, even when another range covers that address."
  },
  {
   "property": "C32",
   "status": "partial",
   "theorems": [
    "C32_unit_safe_partial",
    "C32_unit_header",
    "C32_progress",
    "C32_iteration_terminates",
    "C32_short_section_refuted",
    "C32_wrap_refuted",
    "C32_types5_refuted"
   ],
   "note": "[C32_unit_safe_partial] C32: no read outside the section. Missing: the last bytes of the section (less than 15) are read unchecked, offsets close to 2^64 wrap, and a version 5 unit in .debug_types; see the three refutations. [C32_short_section_refuted] A section which ends within the unit header: only the first four bytes are checked, the rest is read outside. [C32_wrap_refuted] A unit length that makes the next offset 2^64 - 4: the user's loop then reads outside. [C32_types5_refuted] A unit of version 5 in .debug_types: the type signature is read without a check."
  },
  {
   "property": "C33",
   "status": "partial",
   "theorems": [
    "C33_walks",
    "C33_history",
    "C33_decoding_safe",
    "C33_count_partial",
    "C33_count_refuted"
   ],
   "note": "[C33_count_partial] Without DW_FORM_implicit_const the count is right and the walk stays inside. (Zero names or forms, which no DWARF version defines, make it stop early.) [C33_count_refuted] With DW_FORM_implicit_const the constant is taken for the next name: the count can be wrong, and for a declaration accepted before, the walk can leave the section."
  },
  {
   "property": "C34",
   "status": "partial",
   "theorems": [
    "C34_size_partial",
    "C34_inside",
    "C34_ends",
    "C34_overread_partial",
    "C34_overread_refuted",
    "C34_size_refuted",
    "C34_exact_partial"
   ],
   "note": "[C34_size_partial] A value of any form, anywhere in a unit of less than 4 GiB, has the length its bytes have. [C34_overread_partial] Nothing outside the unit's section is read for a value that starts in the unit, unless the form is DW_FORM_indirect; at the very end of the unit one more byte must be there. [C34_overread_refuted] At the end of the unit and the section the first byte of a LEB128 number is read outside; behind DW_FORM_indirect everything is, however many bytes follow the unit: here 5. [C34_size_refuted] Values with an impossible length are accepted: a DW_FORM_block4 of 0xffffffff bytes is taken to be 3 bytes long, an unfinished DW_FORM_block no byte long. [C34_exact_partial] The bytes of the computed length encode a value of the form; not for DW_FORM_block4, DW_FORM_indirect and the LEB128 forms, whose length may be wrong or may rest on a byte outside the unit (C34_size_refuted, C34_overread_refuted)."
  },
  {
   "property": "C35",
   "status": "partial",
   "theorems": [
    "C35_row",
    "C35_range_partial",
    "C35_range_refuted",
    "C35_setloc_refuted",
    "C35_offset_refuted"
   ],
   "note": "[C35_range_partial] The reported range is exactly the row if the FDE's program restores no remembered state. [C35_range_refuted] DW_CFA_restore_state brings back the start address of the remembered state: the range reported for a PC also covers PCs with other rules. [C35_setloc_refuted] A DW_CFA_set_loc whose operand cannot be decoded may be taken for the end of the program (read_encoded_value failed without an error code): the PC, which is behind the new location, gets the rules in force before it. [C35_offset_refuted] Offsets that do not fit 61 bits are cut off."
  },
  {
   "property": "C36",
   "status": "partial",
   "theorems": [
    "C36_overread_partial",
    "C36_initial_partial",
    "C36_well_formed",
    "C36_overread_refuted",
    "C36_block_refuted"
   ],
   "note": "[C36_overread_partial] C36. The interpreter reads at most two bytes behind the instructions and one behind the section: if those can be read, every program is interpreted safely and to the end, whatever its bytes are. [C36_initial_partial] The initial instructions of a CIE, provided two bytes behind their end can be read (C36_overread_refuted). [C36_overread_refuted] With nothing behind the instructions a truncated instruction is read outside: the last byte asks for an operand. With one byte behind them DW_CFA_offset_extended_sf still does, so the two bytes above are needed. [C36_block_refuted] A CFA expression accepted by the interpreter may lie outside the section."
  },
  {
   "property": "C37",
   "status": "partial",
   "theorems": [
    "C37_table_partial",
    "C37_stable",
    "C37_order",
    "C37_advance_refuted",
    "C37_line_refuted",
    "C37_length_refuted",
    "C37_discriminator_refuted",
    "C37_cache_refuted",
    "C37_bounds_refuted",
    "C37_safe_partial"
   ],
   "note": "[C37_table_partial] Whatever line table stands at the offset - any version, offset size, byte order, parameters, tables and program - the rows, files and directories are the ones of the standard's machine. Missing from the full property: advances and operands beyond 32 bits (refuted below), address or line registers that wrap on the way, units of 4 GiB and more in version 5, times and lengths in version 5. [C37_advance_refuted] The operand of DW_LNS_advance_pc is cut to 32 bits. [C37_line_refuted] The operand of DW_LNS_advance_line is cut to the size of an int. [C37_length_refuted] The length of an extended opcode is read as one byte although it is a ULEB128 number. [C37_discriminator_refuted] DW_LNE_set_discriminator is refused unless standard opcode 5 has one operand. [C37_cache_refuted] Two units that share a table but not the compilation directory get the same files. [C37_bounds_refuted] A header that ends after its length field makes the reader go outside the section. [C37_safe_partial] For every content of the section, the table of a unit is read inside the section or refused, provided a zero byte and five more bytes follow the unit (the reads of C37_bounds_refuted) and the string sections end with a zero byte."
  },
  {
   "property": "C38",
   "status": "partial",
   "theorems": [
    "C38_addrsegment_partial",
    "C38_sorted_partial",
    "C38_coalesce_refuted",
    "C38_empty_refuted",
    "C38_module_refuted"
   ],
   "note": "[C38_addrsegment_partial] C38: after any sequence of reports of non-empty, pairwise disjoint segments none of which is merged with its predecessor, lookup finds the segment. [C38_sorted_partial] The table stays sorted, whatever is looked up later. [C38_coalesce_refuted] A segment that continues its predecessor (next index, same non-null identity, contiguous in memory and file) is merged with it by not being entered at all: its addresses are in no segment, although the documentation promises the predecessor's index. [C38_empty_refuted] An empty segment leaves two markers at one address; a segment reported later between a known address and that one is lost. [C38_module_refuted] Asking for the module as well, once a module lies inside a segment, makes the segment disappear from its start on."
  },
  {
   "property": "C39",
   "status": "partial",
   "theorems": [
    "C39_found",
    "C39_sized_first",
    "C39_closest_partial",
    "C39_order_partial",
    "C39_unsized",
    "C39_label_partial",
    "C39_order_refuted",
    "C39_dominated_refuted",
    "C39_label_refuted"
   ],
   "note": "[C39_closest_partial] C39: where closeness and binding do not contradict each other, the result is the closest symbol that contains the address, the strongest and then shortest of those, and the first in the table where that leaves a choice. [C39_order_partial] C39: with a strict ranking the order of the global symbols does not matter. [C39_label_partial] C39: and a label is found, if no sized symbol contains the address and no considered symbol ends behind the label. [C39_order_refuted] C39: the order of the table decides between a closer weak symbol and a global one [C39_dominated_refuted] C39: the result can be a symbol that another one beats in every respect: closer, as strong and shorter [C39_label_refuted] C39: an absolute symbol below the address hides a label of the address's section: nothing is found"
  },
  {
   "property": "C40",
   "status": "partial",
   "theorems": [
    "C40_roundtrip_partial",
    "C40_gnu_roundtrip_partial",
    "C40_corrupt_rejected",
    "C40_compressed_twice_refuted",
    "C40_alignment_refuted",
    "C40_odd_alignment_refuted",
    "C40_records_refuted",
    "C40_gnu_forced_refuted"
   ],
   "note": "[C40_roundtrip_partial] elf_compress (ELFCOMPRESS_ZLIB) and back, for a section of an opened file after any calls, with any lossless compressor: either the section is left alone since compression does not pay and was not forced, or it becomes a header and the compressed bytes, with SHF_COMPRESSED set, and decompressing restores data, type, flags, offset, size and the alignment recorded. Below 4 GiB; alignments must be powers of two, and in class 32 the recorded alignment is that of the data (kept_align). [C40_gnu_roundtrip_partial] The same for elf_compress_gnu (\"ZLIB\", size, data); the section header keeps its flags and alignment. A forced compression must not grow the data by more than 11 bytes. [C40_compressed_twice_refuted] A section that is already compressed is not refused: it is compressed again, and decompressing loses SHF_COMPRESSED. [C40_alignment_refuted] In class 32 the alignment is not restored when it was 0 (or larger than the offset of the section). [C40_odd_alignment_refuted] A section whose alignment is no power of two is compressed, but the result can not be decompressed. [C40_records_refuted] A section with two data records: after compression the second record is still in the list, behind the compressed data of both. [C40_gnu_forced_refuted] The GNU format, forced on data that grows: it is stored, but refused when read back."
  },
  {
   "property": "C41",
   "status": "proved",
   "theorems": [
    "C41_flag_call",
    "C41_flag_history"
   ],
   "note": ""
  },
  {
   "property": "C42",
   "status": "partial",
   "theorems": [
    "C42_decode_partial",
    "C42_empty",
    "C42_history_partial",
    "C42_stable",
    "C42_safe_partial",
    "C42_call2_refuted",
    "C42_pointer_refuted",
    "C42_bounds_refuted",
    "C42_cache_refuted"
   ],
   "note": "[C42_decode_partial] C42: an expression is decoded into its operations, with operands and offsets; the values of DW_OP_implicit_value can be fetched. [C42_history_partial] Whatever was decoded before, an expression is delivered as above, provided that earlier requests for the same place were for the same expression. [C42_safe_partial] No input makes the decoder read outside the section or run on, as long as the block is followed by ten more bytes of the section, and the operations it finds are in their places. [C42_call2_refuted] The operand of DW_OP_call2 is sign-extended. [C42_pointer_refuted] The offset of DW_OP_implicit_pointer is read as an unsigned number. [C42_bounds_refuted] Malformed blocks are accepted: an operation whose operand lies wholly or partly outside the block is delivered, and at the end of the section bytes outside it are read. [C42_cache_refuted] The cache looks at the place only: a shorter expression at the same place, or the same one with other surroundings, gets the operations of the first request."
  },
  {
   "property": "C43",
   "status": "partial",
   "theorems": [
    "C43_cdbl_history",
    "C43_cdbl_delete",
    "C43_csngl_history",
    "C43_sngl_history",
    "C43_delete_check_refuted"
   ],
   "note": "[C43_delete_check_refuted] CDBL_LIST_DEL announces a check that the element is on the list, but the check passes for every element other than the first one: deleting a node of another list goes through, also with assertions on."
  },
  {
   "property": "C44",
   "status": "partial",
   "theorems": [
    "C44_section_content_partial",
    "C44_align"
   ],
   "note": "[C44_section_content_partial] Any history of string, ULEB128, SLEB128, alignment and fill-pattern operations builds exactly the concatenation of the pieces, padding included, however the content is split into blocks. _partial: asm_addint* excluded (C05), asm_addsleb128 only with numbers that fit (C04)."
  },
  {
   "property": "C45",
   "status": "partial",
   "theorems": [
    "C45_asm_end_content_partial",
    "C45_asm_end_order_refuted"
   ],
   "note": "[C45_asm_end_content_partial] Writing the object file: with a single block the data of the section is its content. _partial: with several blocks the order is wrong. [C45_asm_end_order_refuted] A section of more than 960 bytes: the block added last is written first."
  },
  {
   "property": "C46",
   "status": "partial",
   "theorems": [
    "C46_findcu_partial",
    "C46_units_disjoint",
    "C46_findcu_refuted"
   ],
   "note": "[C46_findcu_partial] C46: in a section whose units all have a supported version, each lookup of every history gives the unit containing the offset, and nothing if there is none. [C46_findcu_refuted] A unit of unknown version precedes the unit: the first lookup fails, the second succeeds."
  },
  {
   "property": "C47",
   "status": "partial",
   "theorems": [
    "C47_addrmodule_partial",
    "C47_adjacent_refuted",
    "C47_segments_refuted"
   ],
   "note": "[C47_addrmodule_partial] C47: without reported segments, for modules with at least one address between them, the module that owns an address is found; no other address has a module. [C47_adjacent_refuted] Two modules that touch, reported in order: every address above is given to the second. [C47_segments_refuted] A module that begins below the first reported segment and reaches into it: addresses of the module have no module."
  },
  {
   "property": "C48",
   "status": "partial",
   "theorems": [
    "C48_resume_list",
    "C48_resume_table_partial",
    "C48_resume_refuted"
   ],
   "note": "[C48_resume_table_partial] With the lookup table built from the modules alone [C48_resume_refuted] Two modules that coincide with reported segments and a third below them: the positions of the first two are not corrected, and stopping after module 0 resumes with module 0."
  },
  {
   "property": "C49",
   "status": "partial",
   "theorems": [
    "C49_udata",
    "C49_sdata",
    "C49_ref",
    "C49_block",
    "C49_flag",
    "C49_index_partial",
    "C49_index_refuted",
    "C49_addr",
    "C49_addrx_partial",
    "C49_addrx_refuted",
    "C49_string",
    "C49_strp",
    "C49_strx_partial",
    "C49_strx_refuted"
   ],
   "note": "[C49_index_partial] The value must not be the last of the unit (C49_index_refuted). [C49_index_refuted] The last value of a unit is refused. [C49_addrx_partial] The index must not be the last value of the unit (C49_addrx_refuted). [C49_addrx_refuted] The index is scaled modulo 2^64: an index far outside the table yields its first entry. [C49_strx_partial] The index must not be the last value of the unit (C49_strx_refuted). [C49_strx_refuted] By index, the place behind the last string is accepted."
  },
  {
   "property": "C50",
   "status": "partial",
   "theorems": [
    "C50_decode_partial",
    "C50_children",
    "C50_code_refuted",
    "C50_offset_refuted",
    "C50_lookup_partial",
    "C50_foreign_refuted"
   ],
   "note": "[C50_decode_partial] A declaration is decoded as it was written, with codes below 2^31. [C50_code_refuted] The member holding the code has 31 bits. [C50_offset_refuted] The place reported for an attribute specification does not count the bytes of the code, the tag and the children flag: here the first one starts at 3, not at 0. [C50_lookup_partial] Whatever was looked up or read from the unit's table before, a code resolves to the declaration with that code in the unit's table, and to nothing if there is none. (Codes below 2^31; see C50_code_refuted.) [C50_foreign_refuted] Reading a declaration of another unit's table through this unit changes what its codes mean: the table at 0 declares code 1 with tag 17, the one at 6 code 1 with tag 46."
  },
  {
   "property": "C51",
   "status": "partial",
   "theorems": [
    "C51_child",
    "C51_sibling",
    "C51_walk_partial",
    "C51_walk_refuted"
   ],
   "note": "[C51_walk_partial] A walk of the whole unit by the two visits every entry once, in order, provided that the first entry ends with the unit and has no DW_AT_sibling. [C51_walk_refuted] A DW_AT_sibling which points to the end of the unit makes dwarf_siblingof fail instead of reporting that there is no sibling."
  },
  {
   "property": "C52",
   "status": "partial",
   "theorems": [
    "C52_attr_partial",
    "C52_hasattr",
    "C52_tag",
    "C52_getattrs",
    "C52_attr_refuted"
   ],
   "note": "[C52_attr_partial] C52: dwarf_attr finds the first attribute of the name, with its value, or none. The name 0xffffe444 is excluded. [C52_attr_refuted] The name 0xffffe444 is found in every entry, although no entry has it."
  },
  {
   "property": "C53",
   "status": "partial",
   "theorems": [
    "C53_line",
    "C53_any",
    "C53_program_partial",
    "C53_overlap_refuted"
   ],
   "note": "[C53_program_partial] In terms of the line program, for sequences which are ascending and disjoint (C53_overlap_refuted). [C53_overlap_refuted] With overlapping sequences an address inside one of them is not found."
  },
  {
   "property": "C54",
   "status": "partial",
   "theorems": [
    "C54_members_partial",
    "C54_rand",
    "C54_mode_refuted"
   ],
   "note": "[C54_members_partial] The loop over a well-formed archive gives its members, in order, each with its place, its size, its contents, its name (long or short), date, owner and group. The digits of the mode are taken as a decimal number. In a mapped file the archive has to be at the start of the file. [C54_mode_refuted] FINDING: the mode of a member is octal, but is read as decimal."
  },
  {
   "property": "C55",
   "status": "partial",
   "theorems": [
    "C55_numbers",
    "C55_numbers_refuted"
   ],
   "note": "[C55_numbers_refuted] C55: if the auxiliary table claims to have no local symbol, not even the null one, the first global symbol of the main table has no number"
  },
  {
   "property": "C56",
   "status": "partial",
   "theorems": [
    "C56_clean",
    "C56_again",
    "C56_mmap_refuted",
    "C56_mmap_partial"
   ],
   "note": "[C56_mmap_refuted] C56 fails for a mapped file: bytes between the sections are overwritten with fill although nothing has been changed. Section 1 [128, 138) has its data in memory; the bytes [120, 128) before it belong to no section. [C56_mmap_partial] C56. But the headers, the sections' data and the section headers of a mapped file stay as they are."
  },
  {
   "property": "C57",
   "status": "partial",
   "theorems": [
    "C57_contiguous",
    "C57_ranges",
    "C57_none",
    "C57_haspc",
    "C57_walk_partial",
    "C57_start_refuted",
    "C57_header_refuted",
    "C57_formptr_refuted"
   ],
   "note": "[C57_walk_partial] Any section contents: once the start of a list is known, every call of dwarf_ranges reads only in the section and the offsets it returns grow and stay in the section, so a caller's loop ends. Missing: the start itself, see C57_start_refuted and C57_header_refuted. [C57_start_refuted] The start of an indexed list is the table's entry plus the table's own offset and is not checked against the section: with 8-byte offsets a table entry such as 2^64 - 32 makes dwarf_ranges read in front of the section. [C57_header_refuted] Without a base attribute the header at the start of the section is consulted; its first four bytes are read even when the section is shorter. [C57_formptr_refuted] In DWARF 2 and 3 any constant form is taken for the list's offset; one above 2^63 gives a pointer in front of the section that passes the check against the section's end."
  },
  {
   "property": "C58",
   "status": "partial",
   "theorems": [
    "C58_list",
    "C58_addr",
    "C58_single",
    "C58_walk_partial",
    "C58_length_refuted",
    "C58_loop_refuted"
   ],
   "note": "[C58_walk_partial] Any section contents: a call of dwarf_getlocations reads only in the section, and the expression it reports lies in the section behind the offset given, with the next offset at its end. Missing: expressions of .debug_loclists with a length of 2^63 or more, see C58_length_refuted. [C58_length_refuted] The length of an expression in .debug_loclists is compared as a signed number: 2^64 - 1 passes, the reported expression runs past the section, and the next offset lies before its start. [C58_loop_refuted] With a length of 2^64 - 13 the entry leads back to itself: dwarf_getlocation_addr never returns when asked for an address outside the entry's range."
  },
  {
   "property": "C59",
   "status": "partial",
   "theorems": [
    "C59_entry",
    "C59_walk",
    "C59_progress",
    "C59_safe_partial",
    "C59_bare_refuted",
    "C59_bare_end_refuted",
    "C59_wrap_refuted",
    "C59_personality_refuted",
    "C59_fdesize_partial",
    "C59_fdesize_refuted"
   ],
   "note": "[C59_safe_partial] Any bytes: nothing outside the section is read and what is returned lies inside the entry, except (1) for offsets within 4 of 2^64 (refuted by C59_wrap_refuted) and (2) for an entry that can be a CIE whose augmentation string has bare data (refuted by C59_bare_refuted). [C59_bare_refuted]  [C59_bare_end_refuted] FALSE: that the initial instructions of a returned CIE do not start behind its end. Same cause; here the next entry follows, so that the byte read is in the section. [C59_wrap_refuted] FALSE: that an offset outside the section ends the enumeration. off + 4 is computed modulo 2^64, so an offset of 2^64 - 2 passes the test and the bytes in front of the buffer are read. Such offsets come from the CIE pointer of a 64-bit FDE of .debug_frame. [C59_personality_refuted]  [C59_fdesize_partial] The size of the augmentation data of the FDEs, for strings without 'z': correct without 'R'. [C59_fdesize_refuted] FALSE with 'R' (libdw.h:197-200: \"fde_augmentation_data_size gives the number of bytes of augmentation data before the instructions\"): 'R' gives the encoding of the two addresses of an FDE and adds no augmentation data, but the size of an encoded address is added."
  },
  {
   "property": "C60",
   "status": "partial",
   "theorems": [
    "C60_lookup",
    "C60_header",
    "C60_overread_refuted",
    "C60_short_refuted",
    "C60_top_refuted",
    "C60_noerror_refuted",
    "C60_frame"
   ],
   "note": "[C60_overread_refuted]  [C60_short_refuted]  [C60_top_refuted]  [C60_noerror_refuted] "
  },
  {
   "property": "C61",
   "status": "partial",
   "theorems": [
    "C61_eval_partial",
    "C61_sound",
    "C61_cfa_partial",
    "C61_defined",
    "C61_unique",
    "C61_deref_size_refuted",
    "C61_null_refuted",
    "C61_overflow_refuted",
    "C61_end_refuted",
    "C61_overread_refuted",
    "C61_width_refuted",
    "C61_regno_refuted"
   ],
   "note": "[C61_eval_partial] The value of an expression is the value the stack machine yields; the limits are those of yields_within. Missing: values of more than 64 bits do not exist, but in a file of class 32 the stack machine has values of 32 bits, the library's have 64 (C61_width_refuted); and what lies beyond the limits (the other theorems below). [C61_cfa_partial] the CFA alone [C61_deref_size_refuted] DW_OP_deref_size with 4 bytes in a 64-bit file: the mask is (1 << 32) - 1 computed in int, which is undefined. [C61_null_refuted] DW_OP_deref_size in the expression of the CFA follows a null pointer. [C61_overflow_refuted] A shift by 64, and the negation and the quotient that leave int64_t, are undefined. [C61_end_refuted] A branch to the end of the expression is refused. [C61_overread_refuted] DW_OP_deref_size with one byte fails if only that byte, and not a whole word, can be read. [C61_width_refuted] In a file of class 32 the values have 32 bits: a register that holds -1 is below 0. The library has 64 bits and finds it above. [C61_regno_refuted] The number of a register is cut to 32 bits: DW_OP_regx 2^32 reads register 0."
  },
  {
   "property": "C62",
   "status": "partial",
   "theorems": [
    "C62_registers_partial",
    "C62_sound",
    "C62_return_address",
    "C62_pc_partial",
    "C62_no_register",
    "C62_signal",
    "C62_defined",
    "C62_none",
    "C62_empty_refuted",
    "C62_two_numbers_refuted",
    "C62_backend_number_refuted"
   ],
   "note": "[C62_registers_partial] Of the registers that the backend has, and that no other DWARF number stands for, exactly those are known in the frame of the caller that have a value by the rules, with that value. Partial: the expressions are within the limits of C61 (caller_within), and the rules are plain: no empty expression. [C62_pc_partial] The pc of the caller: the value of the return address register, cut to an address, plus the offset of the backend; undefined when that value is 0 or there is none. Partial: the backend numbers the register as the CIE does, or the register with the backend's number has a value by its rule. [C62_empty_refuted] An expression without operations means the CFA itself as the place of the register. handle_cfi takes the register as undefined. [C62_two_numbers_refuted] The return address is undefined by its rule (the end of the stack), but the other number for the register keeps its value: that value becomes the pc of the caller. [C62_backend_number_refuted] The other way round: the return address has a value, but the number that the backend uses for the register is undefined: the pc is undefined."
  },
  {
   "property": "C63",
   "status": "partial",
   "theorems": [
    "C63_frames",
    "C63_detached",
    "C63_determined",
    "C63_refused",
    "C63_step_partial",
    "C63_endless_refuted",
    "C63_no_memory_refuted",
    "C63_unset_refuted"
   ],
   "note": "[C63_step_partial] One step: with the pc of the frame, less 1 unless it is the first frame or a signal frame, .eh_frame of the module is asked first, then .debug_frame, then the backend's unwinder. Partial: as C62. [C63_endless_refuted]  [C63_no_memory_refuted] memory_read may be NULL, \"in such case dwfl_thread_getframes will return only the initial frame\" (libdwfl.h); but the backend's unwinder calls it without a test. [C63_unset_refuted] If set_initial_registers sets neither the pc nor the return address register, the first pc is read from memory that was never written."
  },
  {
   "property": "C64",
   "status": "partial",
   "theorems": [
    "C64_x86_64",
    "C64_i386",
    "C64_ppc64",
    "C64_aarch64",
    "C64_finite_partial",
    "C64_aarch64_finite_refuted",
    "C64_x32_finite_refuted"
   ],
   "note": "[C64_finite_partial] A chain of frames unwound this way has an end. Partial: not on AArch64, and not for a process of class 32 with the x86-64 backend. [C64_aarch64_finite_refuted]  [C64_x32_finite_refuted] The x86-64 backend in a process of class 32: the new stack pointer is compared before it is cut to 32 bits."
  },
  {
   "property": "C65",
   "status": "partial",
   "theorems": [
    "C65_enumeration_partial",
    "C65_resume_partial",
    "C65_resume_single_refuted",
    "C65_resume_later_refuted",
    "C65_any_bytes_partial",
    "C65_overread_refuted",
    "C65_nothing",
    "C65_unit_entry_partial",
    "C65_version5_refuted"
   ],
   "note": "[C65_enumeration_partial] Every name of every set is passed to the callback once, in the order of the section, with the offset of its entry and of the entry of its unit, until the callback returns something else than 0; then the offset behind that entry is returned. Partial: the full claim is about files of every DWARF version, also units of version 5 (C65_version5_refuted), and units whose first 3 bytes are the last of .debug_info. [C65_resume_partial] a call that goes on behind an entry of the first set sees the entries that are left. Partial: the full claim is about every entry at which a call stopped, see C65_resume_single_refuted and C65_resume_later_refuted. [C65_resume_single_refuted] When there is one set only, going on at any offset, also at the offset a call returned, fails the assertion that follows the search for the set (dwarf_getpubnames.c:184). [C65_resume_later_refuted] Going on at an offset in the second set or a later one fails the assertion in the search for the set, which always stops at the first set (dwarf_getpubnames.c:178-183). [C65_any_bytes_partial] Whatever the bytes are, the call ends, reads nothing outside the sections, passes only names that are in the section with their offset before them and their NUL behind them (every property I of the caller's state that such names preserve holds at the end), and returns an offset in the section. Partial: the unit of no set may begin 3 bytes before the end of .debug_info, see C65_overread_refuted. [C65_overread_refuted] The unit offset of a set is checked to leave 3 bytes in .debug_info, and 4 are read. [C65_unit_entry_partial] The offset reported for the entry of the unit is where unit iteration finds it, for compile units of DWARF 2 to 4. Partial: not for DWARF 5, see C65_version5_refuted. [C65_version5_refuted] The header of a compile unit of DWARF 5 has a byte more: the offset reported for the entry of the unit is not where it is."
  },
  {
   "property": "C66",
   "status": "partial",
   "theorems": [
    "C66_nothing",
    "C66_scopes",
    "C66_inlined_partial",
    "C66_error",
    "C66_defined",
    "C66_ends",
    "C66_namespace_refuted",
    "C66_foreign_origin_refuted"
   ],
   "note": "[C66_inlined_partial] If the innermost inlined call on the way is x, the answer is the entries inside x, x itself, and then the entries around the function that is inlined, outwards, not those around x. Partial: the full claim is that there is always such an answer; there is none if the function is not in the tree of the unit (C66_foreign_origin_refuted). [C66_namespace_refuted] Not every function that contains the address is found: one inside a namespace is not, because the namespace itself does not contain it. [C66_foreign_origin_refuted] An inlined call of a function described in another unit has no scopes at all, although it contains the address."
  },
  {
   "property": "C67",
   "status": "partial",
   "theorems": [
    "C67_scopes_partial",
    "C67_defined",
    "C67_ends",
    "C67_own_refuted",
    "C67_union_refuted"
   ],
   "note": "[C67_scopes_partial] The scopes of an entry are the entry, the entries around it outwards, and the entry of the unit; 0 if it is not in the tree. Partial: the full claim is about every entry of the unit, also the unit's own and those below entries that are not scopes (C67_own_refuted, C67_union_refuted). [C67_own_refuted] The unit's own entry has no scopes, not even itself. [C67_union_refuted] Nor has an entry below a union, although it is in the unit."
  },
  {
   "property": "C68",
   "status": "partial",
   "theorems": [
    "C68_inherited_partial",
    "C68_circle",
    "C68_far_refuted"
   ],
   "note": "[C68_inherited_partial] An attribute is found if the entry has it, or the entry it refers to as its abstract origin or specification, over at most 16 references; otherwise none is. Partial: the full claim has no limit on the references (C68_far_refuted). [C68_far_refuted] "
  },
  {
   "property": "C69",
   "status": "partial",
   "theorems": [
    "C69_peel_partial",
    "C69_sound",
    "C69_deep_refuted"
   ],
   "note": "[C69_peel_partial] Over at most 63 modifiers the type behind them is found, and a modifier without a type is. Partial: the full claim has no limit (C69_deep_refuted). [C69_deep_refuted] "
  },
  {
   "property": "C70",
   "status": "partial",
   "theorems": [
    "C70_size_partial",
    "C70_sound_partial",
    "C70_defined_partial",
    "C70_ends",
    "C70_enumeration_refuted",
    "C70_empty_refuted",
    "C70_overflow_refuted",
    "C70_wrap_refuted",
    "C70_data1_refuted"
   ],
   "note": "[C70_size_partial] The size of a type is the one given; that of a pointer the size of an address; that of a subrange the size of its type; that of an array the product of the elements of its dimensions and their distance; modulo 2^64. Partial: the full claim is about every type, also arrays over enumerations, empty arrays, those with 2^63 elements or more, and types nested deeper than 256 (C70_enumeration_refuted, C70_empty_refuted, C70_overflow_refuted), and the full numbers (C70_wrap_refuted). [C70_sound_partial] Whatever is answered is the size of the type. Partial: the full claim is about every type, also arrays over enumerations, and also languages beyond 2^31, split units and entries that refer to others over more than 16 references, which this leaves out. [C70_defined_partial] No call is undefined if the bounds of subranges are within 62 bits, whatever the entries are. Partial: the full claim is about all bounds (C70_overflow_refuted). [C70_enumeration_refuted] An array over an enumeration of 2 values, of elements of 4 bytes, has 8 bytes; 0 is answered, since the code looks for the values among the children of the array. [C70_empty_refuted]  [C70_overflow_refuted] The upper bound 2^63 - 1 makes the code overflow a signed number. [C70_wrap_refuted] Sizes of 2^64 and more are reported modulo 2^64, not as an error. [C70_data1_refuted] char a[201]: the upper bound 200 in DW_FORM_data1, as compilers write it, is taken for -56, and no size is answered. The attribute reads as 200 and as -56."
  },
  {
   "property": "C71",
   "status": "partial",
   "theorems": [
    "C71_call_partial",
    "C71_every_entry_partial",
    "C71_offset_partial",
    "C71_history",
    "C71_ff_refused_partial",
    "C71_macinfo_partial",
    "C71_any_bytes_partial",
    "C71_opcode0_refuted",
    "C71_all_defined_refuted",
    "C71_many_operands_refuted",
    "C71_header_refuted",
    "C71_empty_refuted",
    "C71_last_refuted",
    "C71_no_section_refuted",
    "C71_shared_line_refuted"
   ],
   "note": "[C71_call_partial] One call: it calls the callback for the entries behind those already seen, in order, each with its opcode and with its operands' forms and places, until the callback returns something else than 0. Then it returns a token, from which the next call goes on behind that entry; at the end of the entries it returns 0. The tables kept from earlier calls do not change this, but for the line offset of a unit that names none (C71_shared_line_refuted). Partial: sections below 4 GiB; not all 255 opcodes are defined; the line offset of the unit's entry is a number or absent. [C71_every_entry_partial] However often and wherever the callback stops it, calling again with the token until 0 is returned passes every entry exactly once, in order. [C71_offset_partial] the same for a unit that is named by its offset, such as an imported one [C71_ff_refused_partial] A caller that starts with 0 and not with DWARF_GETMACROS_START is not shown opcode 255: the entries before it are passed, then the call fails. [C71_macinfo_partial] .debug_macinfo, from the offset that the unit's DW_AT_macro_info names; opcode 255 is a vendor's extension there and always shown [C71_any_bytes_partial] A section of any bytes: a call ends, reads nothing outside, and a token it returns is behind where it began and in the section. Partial: 8 readable bytes behind the section (C71_header_refuted), the unit defines no opcodes (C71_opcode0_refuted, C71_all_defined_refuted), its header does not fill the section (C71_empty_refuted), and the token is that of an entry that is not the section's last (C71_last_refuted). [C71_opcode0_refuted] An operand table that defines opcode 0 writes in front of the array of the opcodes. [C71_all_defined_refuted]  [C71_many_operands_refuted] A number of operands of 2^64 - 1 makes the pointer wrap around. [C71_header_refuted] A header that is cut off is read beyond the end of the section: the line offset, the number of definitions, the opcode of a definition. [C71_empty_refuted] A unit of nothing but a header at the end of the section fails an assertion. [C71_last_refuted] If the section ends behind the last entry, without the 0, a token behind that entry is returned, and going on from it fails an assertion. [C71_no_section_refuted] Without a section .debug_macro a null pointer is followed. [C71_shared_line_refuted] "
  },
  {
   "property": "C72",
   "status": "partial",
   "theorems": [
    "C72_lines_partial",
    "C72_bad_file",
    "C72_zero_refuted",
    "C72_end_refuted",
    "C72_twice_refuted"
   ],
   "note": "[C72_lines_partial] For a line number other than 0: every line returned is a line of a file of the given name, at or behind the line (and column); for each file, of the lines of all units up to where the search ended, what is returned is what is best, in order, or a first part of it if there is no more room; and the search ends early only if there is no room left. If there is none in all units, the call fails with DWARF_E_NO_MATCH. Partial: the full claim has also 0, which is to match every line (C72_zero_refuted), and does not return ends of sequences (C72_end_refuted) or the same line twice (C72_twice_refuted). [C72_zero_refuted] \"If any of the numbers is zero, no match is performed\": with line number 0 not all lines of the file are returned, only one. [C72_end_refuted] The row that ends a sequence has the line of the row before: its address, behind the code, is returned as one of the line. [C72_twice_refuted] Two units with the same line table: every exact line is returned twice."
  },
  {
   "property": "C73",
   "status": "partial",
   "theorems": [
    "C73_single_partial",
    "C73_list_partial",
    "C73_inside",
    "C73_no_lines",
    "C73_marker_missed_refuted"
   ],
   "note": "[C73_single_partial] Missing: where in the rows the search ends is not said beyond `window`, so rows that are marked but behind the window do not count (C73_marker_missed_refuted). What dwarf_getsrclines, dwarf_ranges and dwarf_entrypc give is taken. [C73_list_partial] Missing: as in C73_single_partial. One range that begins at no row makes the whole call fail. [C73_marker_missed_refuted] There may be a row in the function that is marked as the end of the prologue, and a breakpoint is put on another row: the search for the row of the entry has moved the upper bound below the marked row, and the markers are only looked for below that bound (dwarf_entry_breakpoints.c:84-91)."
  },
  {
   "property": "C74",
   "status": "partial",
   "theorems": [
    "C74_functions_partial",
    "C74_resume",
    "C74_once_partial",
    "C74_only",
    "C74_unit",
    "C74_twice_refuted",
    "C74_union_refuted"
   ],
   "note": "[C74_functions_partial] Missing: a tree counts only entries below those that can own scopes, so functions defined in a union are not among them (C74_union_refuted). [C74_once_partial] The functions are shown once each in order, wherever the callback stops. Missing: units that are imported twice, whose functions are in the tree twice (C74_twice_refuted). [C74_twice_refuted]  [C74_union_refuted] "
  },
  {
   "property": "C75",
   "status": "partial",
   "theorems": [
    "C75_instances_partial",
    "C75_only",
    "C75_inline",
    "C75_bad_origin_refuted",
    "C75_other_unit_refuted"
   ],
   "note": "[C75_instances_partial] Missing: an inlined entry whose origin cannot be had (C75_bad_origin_refuted), and instances in other units than the one of the function (C75_other_unit_refuted). [C75_bad_origin_refuted] An inlined entry whose origin cannot be had ends the enumeration with the same result as a callback that stops, and instances behind it are not shown. [C75_other_unit_refuted] "
  },
  {
   "property": "C76",
   "status": "partial",
   "theorems": [
    "C76_found_partial",
    "C76_defined",
    "C76_empty_refuted",
    "C76_second_refuted",
    "C76_file_refuted",
    "C76_other_file_refuted"
   ],
   "note": "[C76_found_partial] The variable that a name stands for. Missing: a scope with the flag for children and none makes the call fail (C76_empty_refuted); a second entry of the name in one scope is not looked at (C76_second_refuted); what file_is says of files is not that it is the one asked for (C76_file_refuted, C76_other_file_refuted). [C76_empty_refuted] A block that has the flag for children and an empty list of them, which is valid, makes the call fail although the variable is in the scope around it. [C76_second_refuted] Two entries of the name in one scope: only the first is compared with the line asked for. [C76_file_refuted] The file \"d/a.c\" is not taken for \"a.c\": the beginning of the name is compared, not its end (dwarf_getscopevar.c:67-70). [C76_other_file_refuted] The file \"a.c/bcd\" is taken for \"a.c\"."
  },
  {
   "property": "C77",
   "status": "partial",
   "theorems": [
    "C77_one_partial",
    "C77_section_partial",
    "C77_once",
    "C77_frame",
    "C77_headers_partial",
    "C77_machine",
    "C77_overflow_refuted",
    "C77_complete_refuted"
   ],
   "note": "[C77_one_partial] one relocation: it is applied, or refused and nothing is changed [C77_section_partial] the relocations of a section: all are applied in order but those of other types and with undefined symbols, which are left; or one is refused for another reason, after the ones before it [C77_headers_partial] data that may be written is not where the headers of the file are. The sums do not wrap: libelf has checked them before [C77_overflow_refuted] A 32-bit signed addition in place overflows for values a file can have (R_386_32 has addends in place): the C code computes an int sum, which is undefined. [C77_complete_refuted] When relocation is not partial a failed call does not take away what it has applied, and the next call applies it again (no caller in the library asks for that)."
  },
  {
   "property": "C78",
   "status": "partial",
   "theorems": [
    "C78_history",
    "C78_called_refuted",
    "C78_defined",
    "C78_undefined",
    "C78_common_partial",
    "C78_common_refuted",
    "C78_xindex_refuted"
   ],
   "note": "[C78_called_refuted] An address of 0 is not kept: the callback is called each time, contrary to the comment on the cache. [C78_common_partial] A common symbol that another module defines has the value of that definition; one that none defines has the value 0 only if the other modules have no symbols. [C78_common_refuted] A common symbol nobody else defines is given the st_value of an unrelated symbol: the last one of the other modules, as resolve_symbol reads symbols into the caller's. [C78_xindex_refuted] A symbol of section 65522, which has its index in the extended table, is taken for a common one."
  },
  {
   "property": "C79",
   "status": "partial",
   "theorems": [
    "C79_table",
    "C79_relocs",
    "C79_inside_partial",
    "C79_limit_partial",
    "C79_sound",
    "C79_other",
    "C79_discarded_refuted",
    "C79_empty_refuted",
    "C79_overlap_refuted"
   ],
   "note": "[C79_inside_partial] An address inside a section of the file gives that section, and the offset in it. The statement needs sections that are apart and not empty; see below for others. [C79_limit_partial] the end of a section is in it unless another begins there; and an address that is in no section is not found [C79_discarded_refuted] A section the callback says is not loaded is in the table at address 0 of the module, and addresses there are said to be in it, also when a loaded section has them. [C79_empty_refuted] Between two sections that touch an empty one is given for an address that is in the second. [C79_overlap_refuted] When sections overlap, an address that is in one may not be found at all."
  },
  {
   "property": "C80",
   "status": "partial",
   "theorems": [
    "C80_always",
    "C80_report",
    "C80_cycle",
    "C80_add",
    "C80_stopped",
    "C80_end",
    "C80_clash_refuted",
    "C80_clash_partial"
   ],
   "note": "[C80_clash_refuted] a report that fails because another file was reported under this name and these addresses does not leave the modules as they were: the module that was reported first is marked, and the end of the reports removes it although it was reported [C80_clash_partial] what such a report does leave as it was: which modules there are until the end of the reports, their handles, and the marks of all others"
  },
  {
   "property": "C81",
   "status": "partial",
   "theorems": [
    "C81_layout",
    "C81_sections",
    "C81_empty_refuted",
    "C81_moved",
    "C81_moved_refuted",
    "C81_segments",
    "C81_align_refuted",
    "C81_offline_partial",
    "C81_offline_refuted"
   ],
   "note": "[C81_empty_refuted] an empty section at the beginning may come to lie before the start of the module [C81_moved_refuted] where the first section is not the lowest, a section may come to lie at an address that is not aligned although it is aligned in the file [C81_align_refuted] an alignment of 0, which means none, is not taken for one of 1: the first segment does not come to lie at the base asked for [C81_offline_partial] files reported one after the other get ranges that are apart, if no section wants more than the 64 KiB between them as alignment; without that condition it is false [C81_offline_refuted] a section aligned to 128 KiB: the next file is put over it"
  },
  {
   "property": "C82",
   "status": "partial",
   "theorems": [
    "C82_crc",
    "C82_pieces",
    "C82_detect",
    "C82_file",
    "C82_checksum_partial",
    "C82_checksum_refuted",
    "C82_strip"
   ],
   "note": "[C82_checksum_partial] the checksum of a file is the CRC-32 of the contents of its sections, without those that strip removes and those that have none in the file. Missing: blocks added to a section that is read from the file [C82_checksum_refuted] a block that the program added to a section read from the file does not change the checksum"
  },
  {
   "property": "C83",
   "status": "partial",
   "theorems": [
    "C83_debuglink",
    "C83_altlink",
    "C83_zsize_partial",
    "C83_zsize_refuted",
    "C83_build_id",
    "C83_build_id_segments",
    "C83_id_safe_partial",
    "C83_long_refuted"
   ],
   "note": "[C83_zsize_partial] the size of a section compressed in the GNU way is the one that its header has. Missing: sizes of 2^63 and more, see C83_zsize_refuted [C83_zsize_refuted] a header with a size of 2^63 or more gives a negative number other than -1, and a size at the end of the range passes the comparison with the size of the section [C83_id_safe_partial] whatever the bytes of the sections or segments are (less than 2 GiB each): the search ends, reads nothing outside them, and what is reported is inside one of them. Missing: larger ones [C83_long_refuted] a build ID of 2 GiB: its length is returned as a negative number"
  },
  {
   "property": "C84",
   "status": "partial",
   "theorems": [
    "C84_path",
    "C84_id_name",
    "C84_by_id",
    "C84_sound",
    "C84_fd_partial",
    "C84_fd_refuted",
    "C84_fd_packed_refuted",
    "C84_root_refuted",
    "C84_hidden_refuted",
    "C84_order",
    "C84_text"
   ],
   "note": "[C84_fd_partial] in a search by name for a module without a build ID, every descriptor is closed once but the one that is given back, which is open. Missing: modules with a build ID, see the next two [C84_fd_refuted] a file that does not have the build ID of the module is closed twice: validate closes its descriptor and the caller does it again [C84_fd_packed_refuted] for a compressed file that is found by name, the descriptor given back is already closed [C84_root_refuted] the absolute directories of the path are not searched for a file in the root directory: with the path \"/u\", the file /u/c.d is not found for /c [C84_hidden_refuted] a wrong file in an earlier directory hides the right one: only the first file of the name by build ID is examined"
  },
  {
   "property": "C85",
   "status": "partial",
   "theorems": [
    "C85_answers_partial",
    "C85_fail",
    "C85_missing",
    "C85_complete",
    "C85_zero_refuted",
    "C85_crash_refuted"
   ],
   "note": "[C85_answers_partial] Partial: names that hash to zero are excluded, see the two refutations below. The prime bound P is there because the existence of a prime for the table size is not proved (see C09). [C85_zero_refuted]  [C85_crash_refuted] Worse, asking for that name, in any file that has a symbol whose hash is a multiple of the table size (here \"B\", hash 66 in 11 slots), makes nlist compare with the null name of a free slot."
  },
  {
   "property": "C86",
   "status": "partial",
   "theorems": [
    "C86_history",
    "C86_new_partial",
    "C86_remove_partial",
    "C86_mapped_refuted",
    "C86_null_refuted",
    "C86_unread_refuted",
    "C86_order_refuted",
    "C86_stale_refuted"
   ],
   "note": "[C86_new_partial] Partial: any file, not only one under construction, but with a table that is in malloc'ed memory (or not read), a header whose e_phentsize is right and room for section zero; the refutations below show what happens without. The call fails and changes nothing, or gives a cleared table of the size asked for. [C86_remove_partial] Removing the table: afterwards there is none and elf_getphdrnum gives 0 if e_phoff is 0. Partial: for a table that was read, and a section zero whose header was read. [C86_mapped_refuted] A table that lies in the mapped file (every file opened with an _MMAP command, byte order of the host, after elf_getphdr): a table of another size is asked for with realloc of the mapped address. [C86_null_refuted] A file that is not mapped has the section headers in memory only after the first elf_getshdr; removing a table that was read writes through the null pointer of section zero. [C86_unread_refuted] \"A COUNT of zero means remove existing table\", but a table that nobody has read yet is not removed. [C86_order_refuted] elf_getphdrnum before elf_newehdr reads e_phoff through a null pointer after it has set the error. [C86_stale_refuted] The extended count that a large table leaves in section zero is cleared when the table is removed, but not when a small one replaces it."
  },
  {
   "property": "C87",
   "status": "partial",
   "theorems": [
    "C87_offscn",
    "C87_unique",
    "C87_gelf",
    "C87_null_refuted"
   ],
   "note": "[C87_null_refuted] elf32_offscn and elf64_offscn accept a null descriptor; gelf_offscn reads its class first."
  },
  {
   "property": "C88",
   "status": "partial",
   "theorems": [
    "C88_line",
    "C88_maps",
    "C88_unique",
    "C88_sorted",
    "C88_bad_line",
    "C88_success",
    "C88_links_refuted",
    "C88_auxv",
    "C88_auxv_error",
    "C88_again_refuted"
   ],
   "note": "[C88_links_refuted] One file under two names, next to each other: two hard links mapped by one process. The report fails and the modules after it are missing, although no line is wrong. [C88_again_refuted] The same 64-bit process reported twice, when it has no special mapping: the first time the page size is found. The second time the 64-bit reading no longer counts, since the page size is the one known; the 32-bit reading of the same bytes counts, and the segment alignment becomes 0."
  },
  {
   "property": "C89",
   "status": "partial",
   "theorems": [
    "C89_history_partial",
    "C89_range",
    "C89_end_refuted",
    "C89_small_refuted",
    "C89_twice_refuted"
   ],
   "note": "[C89_history_partial] Any history of dwfl_module_nextcu and dwfl_module_addrdie in any order: the traversal gives the units in the order of the section and ends after the last, an address in a range gives the unit of the range, and one unit is always given as the same entry. [C89_end_refuted] The address right after the end of the last range is in no range, and is found all the same. [C89_small_refuted] A last unit whose entries take four bytes or less, such as one entry without attributes and the end of its children: it is left out of the traversal. If an address was looked up before, the traversal ends with an error. [C89_twice_refuted] After that the table of units is gone: the next look-up of an address gives a second entry for a unit that the traversal gave already."
  },
  {
   "property": "C90",
   "status": "partial",
   "theorems": [
    "C90_image",
    "C90_safe_partial",
    "C90_order_refuted",
    "C90_header_refuted",
    "C90_wrap_refuted",
    "C90_bss_refuted",
    "C90_reject"
   ],
   "note": "[C90_safe_partial] Memory is never overrun, whatever it holds and however reading it fails, as long as the segments are those of a linker, listed in order, and reach past the header; an image is given only if all bytes of all segments were read. [C90_order_refuted] Segments that are not in order overrun the buffer: its size is taken from the last one. [C90_header_refuted] Segments that end before the header does overrun the buffer: the header is stored whatever the size. [C90_wrap_refuted] An offset of the program headers near the end of the 64-bit range wraps around, and they are taken from before the buffer. [C90_bss_refuted] A segment with nothing of the file in it, at an offset that is a multiple of the page size, makes a file unreadable that is all there."
  },
  {
   "property": "C91",
   "status": "partial",
   "theorems": [
    "C91_bytes_partial",
    "C91_found",
    "C91_none",
    "C91_string_partial",
    "C91_short_refuted",
    "C91_hole_refuted",
    "C91_past_refuted",
    "C91_string_refuted"
   ],
   "note": "[C91_bytes_partial] The bytes given are those of memory: all of them if the core file is mapped, else the number that was asked for at least. A buffer of the caller is not overrun. [C91_string_partial] A string is given whole: it is not empty, and its terminator is its last byte and its only one. Not so for a buffer of the caller and a mapped core file: C91_string_refuted. [C91_short_refuted] A core file that is cut short and mapped gives less than was asked for, and says that all is well. [C91_hole_refuted] An address that no segment holds, before one that does not start the file, gives bytes of another address. [C91_past_refuted] A core file that is not mapped fills the buffer of the caller with what follows the segment in the file. [C91_string_refuted] A string that is longer than the buffer of the caller is given without its end if the core file is mapped, and not given if it is not."
  },
  {
   "property": "C92",
   "status": "partial",
   "theorems": [
    "C92_stream_partial",
    "C92_ends_partial",
    "C92_hang_refuted",
    "C92_gzip_partial",
    "C92_gzip_whole",
    "C92_memory_refuted",
    "C92_formats",
    "C92_image",
    "C92_open"
   ],
   "note": "[C92_stream_partial] Streams of libbz2 and liblzma. However the library cuts the work into steps, however the input comes and the buffer grows, the data given is what the file is the compressed form of; an error of the data is one; the buffer is not overrun; and a file without the magic number is not touched. [C92_ends_partial] With a library that gets on whenever it has room, and says so when there is no more input, it comes to an end. [C92_hang_refuted] A library that waits for more input, as libbz2 does, never ends for a file that is cut short. [C92_gzip_partial] gzip: what is given is the beginning of the data, all of it if buffers that are made bigger are bigger. [C92_memory_refuted] When memory is short the buffer is made bigger by nothing, zlib has no room, and the beginning of the data is given as if it were all."
  },
  {
   "property": "C93",
   "status": "partial",
   "theorems": [
    "C93_threads_partial",
    "C93_ends_partial",
    "C93_one_partial",
    "C93_process",
    "C93_zero_refuted",
    "C93_nested_refuted",
    "C93_registers_partial",
    "C93_registers_refuted",
    "C93_word_partial",
    "C93_word_none",
    "C93_word_refuted",
    "C93_across_refuted"
   ],
   "note": "[C93_threads_partial] Going through the threads calls the callback once for every thread, in the order of the notes, until it says other than 0, and gives what it said; for all callbacks that do not themselves go through the threads, and pids that are more than 0. [C93_ends_partial] Without an assumption on the pids: the walk ends at the first thread whose pid is not above 0, with success if it is 0 and with failure if it is negative. [C93_one_partial] One thread: the callback is called once, for the first thread with that pid, and what it says is the result, even 0 or 1; with no such thread the callback is not called and the result is -1. [C93_zero_refuted] A thread with pid 0, as for the idle task in a core of a kernel, ends the walk with success: later threads are not seen. [C93_nested_refuted]  [C93_registers_partial] The registers of a thread. Every register of a location gets the number at its place in the note, others stay unset, and the pc is that of the item that is the pc; for notes that are long enough and locations that do not set a register twice. [C93_registers_refuted] A location of several registers, of which the first is set already: it is left alone, but its place in the note is not passed over. The next register gets the number that belongs to the first. [C93_word_partial] A word of memory that is in the dumped part of one segment is read, byte for byte as the core holds it. [C93_word_refuted] Memory that is in a segment but not in the core, as pages that are left out: the word is what stands in the file after the segment, bytes of another segment, and no byte of it is held at its address. [C93_across_refuted] A word across two segments that follow each other is not read, although the core holds every byte of it."
  },
  {
   "property": "C94",
   "status": "partial",
   "theorems": [
    "C94_memory64",
    "C94_memory32",
    "C94_memory32_partial",
    "C94_memory32_refuted",
    "C94_attach",
    "C94_frames_partial",
    "C94_frames_refuted"
   ],
   "note": "[C94_memory32_partial] With process_vm_readv the same is true only of the low half of what a read gives, and only where bytes are in order of rising significance. [C94_memory32_refuted] A process of 32 bits with process_vm_readv: a word is given with the next one in its high half; and on a host where the first byte is the most significant, its low half is the next word. [C94_frames_partial] The frames of threads, one after another. If registers can be had of every thread that can be attached, no thread is left attached, no check of the library fails, and a thread that was stopped stays stopped; and if the caller has stopped the threads, the kernel is asked nothing. [C94_frames_refuted] If the registers of a thread cannot be had after it was attached, nothing detaches it: it stays stopped under trace, and asking for the frames of any thread after that ends the program with a failed check."
  },
  {
   "property": "C95",
   "status": "partial",
   "theorems": [
    "C95_sections",
    "C95_opens",
    "C95_group_refuted"
   ],
   "note": "[C95_group_refuted] The sections of a group are never opened: reading the numbers of the sections goes one past the last, outside of the data of the group, in every group that has any data."
  },
  {
   "property": "C96",
   "status": "partial",
   "theorems": [
    "C96_memory_partial",
    "C96_served_partial",
    "C96_wrap_refuted"
   ],
   "note": "[C96_memory_partial] For every history of requests whose sizes do not wrap, and every malloc that keeps to its contract: what is given out is aligned, has the size asked for, is within memory that malloc gave or that of the handle, and no two pieces overlap. [C96_served_partial] A request is answered unless malloc has nothing, and malloc is only asked if the piece does not fit in the last block. [C96_wrap_refuted] Sizes that wrap. A number of items times their size that is 2^64 gives a piece of no bytes; and a request of 2^63 bytes asks malloc for a block of the default size, and gives a piece that is not inside of it. Both without an error."
  },
  {
   "property": "C97",
   "status": "partial",
   "theorems": [
    "C97_character",
    "C97_piece",
    "C97_sections_partial",
    "C97_order_refuted",
    "C97_reads_partial",
    "C97_offset_refuted",
    "C97_lost_refuted",
    "C97_overrun_refuted",
    "C97_wide_refuted"
   ],
   "note": "[C97_sections_partial] An ELF file that fits in one mapping and whose allocated sections are in the order of the file: the strings of each of the sections, in order; sections that are not within the file are left out, which the exit status tells. [C97_order_refuted] An allocated section that lies in the file before the first one, and ends where the page of the first one starts, is passed over without a word. [C97_reads_partial] Standard input, or a file that cannot be mapped, for every way in which read gives its bytes: if every read gives at least as many bytes as a string must have, and one that is not of a string, then the texts printed are those of the strings of the whole input, none lost, none twice and none cut where a read ends. [C97_offset_refuted] The offsets are not those of the strings: for a string that goes over two reads it is that of the second part, and bytes that are kept for the next read are counted twice. Above, hello is at 1 and is said to be at 5; here abcd is at 6 and is said to be at 10. [C97_lost_refuted] A string whose end comes with a read of fewer bytes than a string must have is lost, if that is the last of the file; if read then says that it was the last one, an assertion fails. [C97_overrun_refuted] A string that goes over a whole read: memory after the bytes that were read is taken for a part of it. [C97_wide_refuted] With characters of 2 or of 4 bytes, of either byte order, no string of more than one character is ever printed, as the search goes on by one byte and not by one character."
  },
  {
   "property": "C98",
   "status": "partial",
   "theorems": [
    "C98_index_partial",
    "C98_none",
    "C98_twice_refuted",
    "C98_wrap_refuted",
    "C98_symbols_partial",
    "C98_many_refuted"
   ],
   "note": "[C98_index_partial] For every archive of padded members with at most one index that has symbols and stays below 4 GB: the new file has the same members, in order, except for the index, which comes first; elf_getarsym, on the file mapped or not, gives every symbol of every member, in order, with the place where the bytes of its member are in the new file. [C98_twice_refuted] With two members that are an index only the last is taken away, and the other one, which stays, is not counted in the offsets: the symbol is said to be where that index is. [C98_wrap_refuted] An archive near 4 GB: the size of the index is added to the offset without a look at whether the sum fits, so that the offset wraps although the archive was not too large before. [C98_symbols_partial] An object file: the names of the defined global symbols of all its symbol tables; an executable or shared object: those of its first dynamic symbol table; other members: none. [C98_many_refuted] The number of entries is kept in an int: with 2^31 entries or more no symbol is taken."
  },
  {
   "property": "C99",
   "status": "partial",
   "theorems": [
    "C99_file_partial",
    "C99_totals_partial",
    "C99_large_refuted",
    "C99_header_refuted"
   ],
   "note": "[C99_file_partial] One file whose loaded sections have less than 2^63 bytes together: the columns are the sums of the sizes of the loaded sections that are not writable, that are writable with contents and that are writable without; the total is that of all loaded sections, the same that the two other formats give, which list each loaded section once, in order. [C99_totals_partial] Several files: the line of each file does not depend on the others, and the totals are the sums over all of them. [C99_large_refuted] A section of 2^63 bytes or more is shown as a negative number, and sizes whose sum is 2^64 or more have a total that is too small. [C99_header_refuted] A section without a header: the program ends with a message, but in the one-line format a null pointer is followed."
  },
  {
   "property": "C100",
   "status": "partial",
   "theorems": [
    "C100_fdread_partial",
    "C100_result",
    "C100_fdread_fails",
    "C100_fddone_refuted",
    "C100_rawfile_partial",
    "C100_getaroff_partial",
    "C100_getaroff_refuted"
   ],
   "note": "[C100_fdread_partial] After elf_cntl (ELF_C_FDREAD) has said that it is done, the handle, and every handle of a member (or of a member of a member) open at that time, gives the same bytes as before at all places inside it, whatever becomes of the descriptor: file' is what it gives then. [C100_fddone_refuted] ELF_C_FDDONE on an archive takes the descriptor away from its handle only: the handles of members go on reading from it, whatever it has become. [C100_rawfile_partial] elf_rawfile gives the bytes of the file that belong to the handle and their number, for a handle that is not in memory; the handle is then in memory and a second call gives the same whatever the descriptor gives by then. [C100_getaroff_partial] Reading an archive into memory leaves the place of each member in it (elf_getaroff) as it was. [C100_getaroff_refuted] Reading a member into memory by itself makes elf_getaroff of it wrong, for every member of every archive: it becomes negative, and elf_getbase of the member becomes 0."
  }
 ]
}