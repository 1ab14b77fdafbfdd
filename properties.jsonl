{"id": "C01", "title": "ULEB128 decoding is exact and never reads past the end", "statement": "Decoding an unsigned LEB128 number of at most 10 bytes that is terminated inside the buffer yields the sum of its 7-bit groups (mod 2^64), advances the cursor exactly past the terminating byte, and, for a non-empty buffer, never reads a byte at or beyond the end pointer; an unterminated number yields UINT64_MAX.", "quantifier": "every byte buffer, every start position before the end pointer", "why_tests_cant": "2^80 encodings and every truncation point; tests sample a few values", "anchors": ["libdw/memory-access.h:__libdw_get_uleb128", "libdw/memory-access.h:get_uleb128_step", "libdw/memory-access.h:__libdw_max_len_uleb128"]}
{"id": "C02", "title": "SLEB128 decoding is exact for every int64 value", "statement": "Decoding the canonical signed LEB128 encoding of any 64-bit signed integer yields that integer and consumes exactly its encoding.", "quantifier": "every int64 value, every buffer that starts with its encoding", "why_tests_cant": "2^64 values; the boundary (10-byte encodings) is exactly what examples omit", "anchors": ["libdw/memory-access.h:__libdw_get_sleb128", "libdw/memory-access.h:get_sleb128_step"]}
{"id": "C03", "title": "Unaligned fixed-width reads honour the file byte order", "statement": "The 2-, 3-, 4- and 8-byte unaligned readers (plain and cursor-advancing) return the little- or big-endian value of exactly that many bytes according to the file's byte order, and the cursor-advancing forms move past exactly those bytes.", "quantifier": "every byte buffer, position and byte order", "why_tests_cant": "every byte pattern and both byte orders", "anchors": ["libdw/memory-access.h:read_2ubyte_unaligned", "libdw/memory-access.h:read_3ubyte_unaligned_inc", "libdw/memory-access.h:read_4ubyte_unaligned", "libdw/memory-access.h:read_8ubyte_unaligned"]}
{"id": "C04", "title": "Assembler LEB128 output decodes back to the number added", "statement": "After asm_adduleb128/asm_addsleb128 the bytes appended to the section decode (by the DWARF LEB128 rules) to exactly the number passed.", "quantifier": "every 32-bit unsigned / signed number", "why_tests_cant": "2^32 values each", "anchors": ["libasm/asm_adduleb128.c:asm_adduleb128", "libasm/asm_addsleb128.c:asm_addsleb128"]}
{"id": "C05", "title": "Assembler integer emission appends the integer in the output byte order", "statement": "asm_addint8/16/32/64 and the unsigned variants append exactly the integer's bytes in the byte order of the output file to the section and leave earlier content unchanged.", "quantifier": "every number, every previous section content and section type", "why_tests_cant": "all values and all section states (block boundaries included)", "anchors": ["libasm/asm_addint8.c", "libasm/asm_addint16.c", "libasm/asm_align.c:__libasm_ensure_section_space"]}
{"id": "C06", "title": "The ELF symbol hash equals the System V ABI hash", "statement": "elf_hash(s) equals the ABI-specified hash of s for every string, although the code unrolls five steps and skips masking inside the loop.", "quantifier": "every NUL-terminated string of any length", "why_tests_cant": "unbounded strings; skipped masking only shows on long inputs", "anchors": ["libelf/dl-hash.h:_dl_elf_hash", "libelf/elf_hash.c:elf_hash"]}
{"id": "C07", "title": "The GNU hash equals its specification", "statement": "elf_gnu_hash(s) equals 5381*33^n + sum c_i*33^(n-1-i) reduced mod 2^32 for every string.", "quantifier": "every NUL-terminated string of any length", "why_tests_cant": "unbounded strings; 64-bit accumulator overflow only on long inputs", "anchors": ["libelf/elf_gnu_hash.c:elf_gnu_hash"]}
{"id": "C08", "title": "crc32 is the IEEE 802.3 CRC and is incremental", "statement": "crc32(0,buf) equals the bit-by-bit reflected CRC-32 (polynomial 0xEDB88320, init and final complement), and crc32(crc32(c,a),b) = crc32(c,a++b); hence crc32_file gives the CRC of the file content regardless of how reads are chunked.", "quantifier": "every buffer, every split into chunks, every sequence of short reads", "why_tests_cant": "unbounded buffers and every possible chunking by the kernel", "anchors": ["lib/crc32.c:crc32", "lib/crc32.c:crc32_table", "lib/crc32_file.c:crc32_file"]}
{"id": "C09", "title": "next_prime returns a prime not below its argument", "statement": "next_prime(n) terminates with the least odd prime that is >= n (no prime is skipped), so hash table sizes are prime and the double-hashing step visits every slot.", "quantifier": "every seed whose next prime is representable", "why_tests_cant": "every machine-word seed", "anchors": ["lib/next_prime.c:next_prime", "lib/next_prime.c:is_prime"]}
{"id": "C10", "title": "The dynamic hash table is a finite map", "statement": "After any sequence of inserts on a fresh table, find(h) returns the first value inserted for h (insert reports a duplicate and does not overwrite), keys never inserted are not found, and growth does not lose or alter entries; lookups always terminate.", "quantifier": "every initial size, every sequence of insert/overwrite/find operations of any length", "why_tests_cant": "unbounded histories, collisions and resizes", "anchors": ["lib/dynamicsizehash.c:insert_entry_2", "lib/dynamicsizehash.c:lookup", "lib/dynamicsizehash.h"]}
{"id": "C11", "title": "The fixed-size hash table is a finite map up to its capacity", "statement": "After init with nelems and at most nelems inserts, every inserted entry is found under its hash and string, duplicates are rejected and nothing else is found.", "quantifier": "every nelems, every sequence of at most nelems inserts", "why_tests_cant": "unbounded histories and collision patterns", "anchors": ["lib/fixedsizehash.h:CONCAT_HASH", "lib/fixedsizehash.h:lookup", "lib/fixedsizehash.h:insert"]}
{"id": "C12", "title": "The string table builder places every string at its reported offset", "statement": "After any sequence of dwelf_strtab_add calls followed by finalize, every returned entry's offset designates its string followed by NUL inside the produced buffer, sharing suffixes; the buffer size is exactly the accumulated total and no byte outside it is written.", "quantifier": "every sequence of added strings (with and without the initial empty string)", "why_tests_cant": "unbounded numbers of strings and all suffix relations/insertion orders", "anchors": ["libdwelf/dwelf_strtab.c:strtab_add", "libdwelf/dwelf_strtab.c:searchstring", "libdwelf/dwelf_strtab.c:copystrings", "libdwelf/dwelf_strtab.c:dwelf_strtab_finalize"]}
{"id": "C13", "title": "Section indices are dense and stable", "statement": "For any interleaving of elf_newscn calls on an ELF descriptor, elf_getscn(i) succeeds exactly for i < number of sections and returns the section whose elf_ndxscn is i; elf_nextscn enumerates 1..n-1 in order and previously obtained sections keep their identity; elf_getshdrnum returns the count.", "quantifier": "every initial section count, every number of elf_newscn calls", "why_tests_cant": "unbounded growth over linked blocks of different sizes", "anchors": ["libelf/elf_newscn.c:elf_newscn", "libelf/elf_getscn.c:elf_getscn", "libelf/elf_nextscn.c:elf_nextscn", "libelf/elf_getshdrnum.c:__elf_getshdrnum_rdlock"]}
{"id": "C14", "title": "Opening an ELF image never reads outside it", "statement": "elf_begin/elf_memory on an arbitrary memory image either rejects it or produces a descriptor without reading any byte outside [image, image+size); the number of sections accepted is such that the whole section header table lies inside the image.", "quantifier": "every byte image of every size", "why_tests_cant": "arbitrary malformed inputs", "anchors": ["libelf/elf_begin.c:get_shnum", "libelf/elf_begin.c:file_read_elf", "libelf/elf_begin.c:__libelf_read_mmaped_file", "libelf/common.h:determine_kind"]}
{"id": "C15", "title": "Extended section numbering is resolved as the gABI says", "statement": "elf_getshdrnum, elf_getshdrstrndx and elf_getphdrnum return the extended values (section 0's sh_size, sh_link, sh_info) exactly when the header uses the escape values (0, SHN_XINDEX, PN_XNUM), else the header fields, and a returned phdr count always lies inside the file.", "quantifier": "every header content and file size", "why_tests_cant": "all combinations of escape values and sizes", "anchors": ["libelf/elf_getshdrstrndx.c:elf_getshdrstrndx", "libelf/elf_getphdrnum.c:__elf_getphdrnum_chk_rdlock", "libelf/elf_begin.c:get_shnum"]}
{"id": "C16", "title": "elf_strptr only returns NUL-terminated strings inside the section", "statement": "A non-NULL result of elf_strptr(elf, idx, off) points to a string that is NUL-terminated before the end of the (raw, decompressed or multi-buffer) section data; every other off yields NULL with an error.", "quantifier": "every section content, offset and data-list layout", "why_tests_cant": "every offset and content", "anchors": ["libelf/elf_strptr.c:elf_strptr", "libelf/elf_strptr.c:validate_str"]}
{"id": "C17", "title": "Section data stays within the file", "statement": "elf_rawdata/elf_getdata deliver for a section exactly the sh_size bytes at sh_offset of the file and refuse sections not contained in it; elf_getdata_rawchunk returns exactly the requested range or fails.", "quantifier": "every section header, every file size and offset", "why_tests_cant": "every header value incl. 64-bit overflow", "anchors": ["libelf/elf_getdata.c:__libelf_set_rawdata_wrlock", "libelf/elf_getdata_rawchunk.c:elf_getdata_rawchunk"]}
{"id": "C18", "title": "Byte-order translation is an involution preserving everything", "statement": "Translating a buffer of n records to file representation and back (elf32/64_xlatetof, xlatetom, either encoding) gives the original bytes, for every record type, and translated records have every field byte-swapped and nothing else touched.", "quantifier": "every record type, class and buffer of a whole number of records", "why_tests_cant": "all contents and lengths", "anchors": ["libelf/gelf_xlate.c", "libelf/abstract.h", "libelf/elf32_xlatetom.c", "libelf/elf32_xlatetof.c"]}
{"id": "C19", "title": "Note translation never leaves the buffer and keeps the notes", "statement": "Translating note data in the other byte order reads and writes only within the len bytes given, terminates, and delivers the same note headers/payloads.", "quantifier": "every note buffer of any length", "why_tests_cant": "attacker-controlled 32-bit sizes overflow only at extreme values", "anchors": ["libelf/note_xlate.h:elf_cvt_note"]}
{"id": "C20", "title": "Symbol version translation terminates inside the buffer", "statement": "Translating version definition/requirement sections terminates for every content (even cyclic or truncated chains), touches only the len bytes, and round-trips for well-formed chains.", "quantifier": "every buffer of any length", "why_tests_cant": "arbitrary next/aux chains", "anchors": ["libelf/version_xlate.h:elf_cvt_Verdef", "libelf/version_xlate.h:elf_cvt_Verneed"]}
{"id": "C21", "title": "GNU hash section translation round-trips", "statement": "Translating a 64-bit GNU hash section to the other byte order and back gives the original section, also when source and destination are the same buffer, and never touches bytes outside it.", "quantifier": "every section content and length, in-place or not", "why_tests_cant": "content-dependent layout (bitmask word count)", "anchors": ["libelf/gnuhash_xlate.h:elf_cvt_gnuhash"]}
{"id": "C22", "title": "Note iteration makes progress inside the section", "statement": "A non-zero result of gelf_getnote is greater than the offset passed and not beyond the data; header, name and descriptor of the reported note lie inside the data; so iterating always terminates.", "quantifier": "every note data content, size and offset", "why_tests_cant": "32-bit size fields and alignment arithmetic overflow only at extremes", "anchors": ["libelf/gelf_getnote.c:gelf_getnote", "libelf/libelfP.h:NOTE_ALIGN4"]}
{"id": "C23", "title": "gelf record get/update are inverse and class independent", "statement": "gelf_update_X followed by gelf_getX returns the stored record, for 32-bit files whenever the values fit (and is refused, leaving the data unchanged, when they do not), other records are unaffected; indices outside the data are refused.", "quantifier": "every record kind, index, buffer and value", "why_tests_cant": "all 64-bit values, boundary of 32-bit range, all indices", "anchors": ["libelf/gelf_getsym.c", "libelf/gelf_update_sym.c", "libelf/gelf_getrela.c", "libelf/gelf_update_rela.c", "libelf/gelf_getshdr.c", "libelf/gelf_update_shdr.c", "libelf/gelf_update_phdr.c", "libelf/gelf_update_dyn.c"]}
{"id": "C24", "title": "Archive member traversal is bounded and makes progress", "statement": "Iterating over an archive with elf_begin/elf_next/elf_rand visits members at strictly increasing offsets inside the archive and terminates for every content; each member handed out lies inside the archive.", "quantifier": "every archive image", "why_tests_cant": "arbitrary ASCII size fields", "anchors": ["libelf/elf_begin.c:__libelf_next_arhdr_wrlock", "libelf/elf_next.c:elf_next", "libelf/elf_rand.c:elf_rand", "libelf/elf_begin.c:read_long_names"]}
{"id": "C25", "title": "Archive long names are resolved inside the table", "statement": "A long member name is always NUL-terminated inside the long-name table and equals the table text up to the '/' newline terminator.", "quantifier": "every long-name table and index", "why_tests_cant": "arbitrary table contents and index digits", "anchors": ["libelf/elf_begin.c:read_long_names", "libelf/elf_begin.c:__libelf_next_arhdr_wrlock"]}
{"id": "C26", "title": "The archive symbol index is reported faithfully and safely", "statement": "elf_getarsym returns the n entries of the index with their offsets, names and hashes plus a terminator, without reading outside the index.", "quantifier": "every archive image", "why_tests_cant": "corrupt counts / unterminated names", "anchors": ["libelf/elf_getarsym.c:elf_getarsym", "libelf/elf_getarsym.c:read_number_entries"]}
{"id": "C27", "title": "Default layout places headers, sections and data without overlap", "statement": "When libelf computes the layout (no ELF_F_LAYOUT) elf_update assigns every section an offset aligned to its alignment, so that ELF header, program headers, section contents and section header table are pairwise disjoint and inside the returned file size, and data buffers within a section are aligned and disjoint.", "quantifier": "every number of sections and data buffers, every size and alignment", "why_tests_cant": "unbounded configurations; overflow only at large sizes", "anchors": ["libelf/elf32_updatenull.c:__elfw2(LIBELFBITS,updatenull_wrlock)", "libelf/elf_update.c:elf_update"]}
{"id": "C28", "title": "User-supplied layouts are accepted only if every buffer fits", "statement": "With ELF_F_LAYOUT elf_update fails unless every data buffer lies inside its section's size and the returned file size covers every header and section.", "quantifier": "every layout supplied by the user", "why_tests_cant": "arbitrary offsets and sizes, overflow", "anchors": ["libelf/elf32_updatenull.c:__elfw2(LIBELFBITS,updatenull_wrlock)"]}
{"id": "C29", "title": "Written files contain exactly the described bytes", "statement": "After a successful elf_update of a new file, the bytes at each header's/buffer's position are that header/buffer (in file byte order) and gaps hold the fill byte.", "quantifier": "every number of sections and buffers, every gap size, every previous file content", "why_tests_cant": "unbounded configurations and fill buffer reuse", "anchors": ["libelf/elf32_updatefile.c:__elfw2(LIBELFBITS,updatefile)", "libelf/elf32_updatefile.c:fill", "libelf/elf32_updatefile.c:sort_sections"]}
{"id": "C30", "title": "Descriptors are freed exactly when the last reference goes", "statement": "For any sequence of elf_begin (duplicates, archive members) and elf_end calls, a descriptor's resources are released exactly when its reference count reaches zero, a parent archive outlives its open members, and no descriptor is used after release.", "quantifier": "every history of begin/end calls on a tree of descriptors", "why_tests_cant": "unbounded histories", "anchors": ["libelf/elf_end.c:elf_end", "libelf/elf_begin.c:elf_begin", "libelf/elf_begin.c:dup_elf"]}
{"id": "C31", "title": "Address-range lookup agrees with the table", "statement": "dwarf_getaranges returns all ranges sorted by address, and dwarf_getarange_addr(a) returns a range containing a whenever one exists (for non-overlapping ranges) and NULL otherwise.", "quantifier": "every table content of any length, every address", "why_tests_cant": "unbounded tables; binary search boundary conditions", "anchors": ["libdw/dwarf_getaranges.c:dwarf_getaranges", "libdw/dwarf_getarange_addr.c:dwarf_getarange_addr"]}
{"id": "C32", "title": "Unit iteration makes progress and stays inside the section", "statement": "dwarf_next_unit either reports the end, an error, or a next offset strictly greater than the current one (or the end marker); iterating terminates; the header bytes read lie inside .debug_info/.debug_types.", "quantifier": "every section content and offset", "why_tests_cant": "attacker-controlled 64-bit lengths", "anchors": ["libdw/dwarf_nextcu.c:__libdw_next_unit"]}
{"id": "C33", "title": "Abbreviations accepted once are walked safely later", "statement": "If an abbreviation is accepted when first decoded, then every later unchecked walk over its attribute specifications (dwarf_getattrs, attribute search) stays inside .debug_abbrev and ends at the terminating pair.", "quantifier": "every .debug_abbrev content and offset", "why_tests_cant": "every malformed content; cross-function invariant", "anchors": ["libdw/dwarf_getabbrev.c:__libdw_getabbrev", "libdw/dwarf_getattrs.c:dwarf_getattrs", "libdw/memory-access.h:get_uleb128_unchecked"]}
{"id": "C34", "title": "Attribute values stay inside their unit", "statement": "The computed length of an attribute value of any form never extends beyond the end of its unit and equals the size prescribed by DWARF for that form.", "quantifier": "every form, unit parameters and unit content", "why_tests_cant": "all forms and 64-bit length values", "anchors": ["libdw/libdw_form.c:__libdw_form_val_compute_len", "libdw/libdwP.h:__libdw_form_val_len"]}
{"id": "C35", "title": "CFI execution yields the unwind row of the PC", "statement": "For every FDE program, the frame computed for a PC holds the CFA and register rules obtained by the DWARF CFI semantics for the row containing the PC, and the reported [start,end) range contains the PC and only PCs with that same row.", "quantifier": "every instruction sequence and PC", "why_tests_cant": "unbounded programs, all opcodes, remember/restore nesting", "anchors": ["libdw/cfi.c:execute_cfi", "libdw/cfi.c:__libdw_frame_at_address"]}
{"id": "C36", "title": "CFI execution never reads outside the instructions", "statement": "Interpreting a CFI program never reads at or beyond the end of the instruction bytes, whatever their content.", "quantifier": "every byte sequence", "why_tests_cant": "truncation after every opcode", "anchors": ["libdw/cfi.c:execute_cfi"]}
{"id": "C37", "title": "Line tables follow the DWARF line-number state machine", "statement": "The rows returned by dwarf_getsrclines are those produced by the DWARF line-number program semantics (special, standard and extended opcodes, min-inst-length, op-index), sorted by address.", "quantifier": "every line program", "why_tests_cant": "unbounded opcode sequences", "anchors": ["libdw/dwarf_getsrclines.c:read_srclines", "libdw/dwarf_getsrclines.c:run_advance_pc", "libdw/dwarf_getsrclines.c:add_new_line"]}
{"id": "C38", "title": "Segment lookup agrees with the reported segments", "statement": "After any sequence of dwfl_report_segment calls with disjoint segments, dwfl_addrsegment(a) returns the index of the reported segment whose (page-rounded) range contains a and -1 otherwise; the internal table stays sorted.", "quantifier": "every sequence of reported segments, every address", "why_tests_cant": "unbounded histories, any order", "anchors": ["libdwfl/segment.c:insert", "libdwfl/segment.c:lookup", "libdwfl/segment.c:dwfl_report_segment", "libdwfl/segment.c:dwfl_addrsegment"]}
{"id": "C39", "title": "Symbol lookup by address picks a closest symbol", "statement": "dwfl_module_addrsym returns the symbol that, among those considered, has the greatest value not above the address, preferring sized symbols that contain the address, independent of table order where the ranking is strict.", "quantifier": "every symbol table and address", "why_tests_cant": "unbounded tables and orders", "anchors": ["libdwfl/dwfl_module_addrsym.c:__libdwfl_addrsym"]}
{"id": "C40", "title": "Compressed sections decompress to what was compressed", "statement": "elf_compress/elf_compress_gnu followed by decompression restores section data, flags, type, size and alignment, and headers are validated so corrupt sizes are rejected.", "quantifier": "every section content, any lossless compressor", "why_tests_cant": "all contents; relies only on the zlib round-trip contract", "anchors": ["libelf/elf_compress.c", "libelf/elf_compress_gnu.c"]}
{"id": "C41", "title": "elf_flag operations only affect their flag set", "statement": "elf_flagelf/ehdr/phdr/scn/shdr/data set or clear exactly the requested bits, return the resulting flags, and reject unknown commands without change.", "quantifier": "every flag value, command and previous state", "why_tests_cant": "all bit combinations and histories", "anchors": ["libelf/elf_flagelf.c", "libelf/elf_flagdata.c", "libelf/elf_flagscn.c"]}
{"id": "C42", "title": "Location expressions are decoded completely and in order", "statement": "Decoding a DWARF expression yields the list of its operations with operands and offsets, covering the block exactly, or an error; no byte outside the block is read.", "quantifier": "every byte block", "why_tests_cant": "unbounded expressions, truncation after every operand", "anchors": ["libdw/dwarf_getlocation.c:__libdw_intern_expression"]}
{"id": "C43", "title": "Linked list macros keep the circular list well formed", "statement": "Adding to the rear and deleting elements of the circular lists preserves well-formedness and yields the sequence of elements in insertion order without the deleted ones.", "quantifier": "every sequence of add/delete operations", "why_tests_cant": "unbounded histories over pointers", "anchors": ["lib/list.h:CDBL_LIST_ADD_REAR", "lib/list.h:CDBL_LIST_DEL", "lib/list.h:CSNGL_LIST_ADD_REAR"]}
{"id": "C44", "title": "Assembled section content is the concatenation of the pieces added", "statement": "After any sequence of string, number, alignment and fill-pattern operations on a section, its content is exactly the concatenation of the pieces in order, alignment padding being the fill pattern indexed by the section offset; the offset equals the content length and the recorded alignment is the maximum requested.", "quantifier": "every history of operations on a section, every argument", "why_tests_cant": "content is split into growing memory blocks at history-dependent points", "anchors": ["libasm/asm_align.c", "libasm/asm_fill.c", "libasm/asm_addstrz.c", "libasm/asm_align.c:__libasm_ensure_section_space"]}
{"id": "C45", "title": "asm_end writes section content in the order it was added", "statement": "The data buffers asm_end attaches to the output section, taken in order, are the content of the assembled section.", "quantifier": "every section content and block structure", "why_tests_cant": "only contents larger than one block show the order", "anchors": ["libasm/asm_end.c:binary_end"]}
{"id": "C46", "title": "Looking up a unit by offset gives the unit containing it", "statement": "Whatever lookups were made before, looking up an offset in .debug_info or .debug_types returns the unit whose bytes contain that offset, the same unit each time, and nothing when no unit contains it.", "quantifier": "every section content, every history of lookups", "why_tests_cant": "histories and contents are unbounded; the lookup is lazy and caches", "anchors": ["libdw/libdw_findcu.c:__libdw_findcu", "libdw/libdw_findcu.c:__libdw_intern_next_unit", "libdw/dwarf_nextcu.c:__libdw_next_unit"]}
{"id": "C47", "title": "An address is attributed to the module that contains it", "statement": "dwfl_addrmodule returns the reported module whose (page-rounded) address range contains the address, and no module for other addresses, whatever modules and segments were reported in which order.", "quantifier": "every set of reported modules and segments, every address", "why_tests_cant": "all address layouts and report orders", "anchors": ["libdwfl/segment.c:reify_segments", "libdwfl/segment.c:dwfl_addrsegment", "libdwfl/dwfl_addrmodule.c:dwfl_addrmodule"]}
{"id": "C48", "title": "An interrupted iteration over modules resumes with the next module", "statement": "When a dwfl_getmodules callback stops the iteration, calling dwfl_getmodules with the returned offset continues with the module after the last one visited, so that each module is visited exactly once.", "quantifier": "every set of modules and segments, every stopping point", "why_tests_cant": "all layouts and stopping points; two encodings of the offset", "anchors": ["libdwfl/dwfl_getmodules.c:dwfl_getmodules", "libdwfl/segment.c:reify_segments"]}
{"id": "C49", "title": "An attribute's value is read as it was encoded", "statement": "Whatever value of a form's class is encoded in a unit, the reader for that class (unsigned, signed, address, flag, reference, block, string) returns that value; indexed addresses and strings return the entry of the table with that index.", "quantifier": "every form, value, unit, byte order and size", "why_tests_cant": "all forms, values, widths and positions, including the last bytes of a unit", "anchors": ["libdw/dwarf_formudata.c", "libdw/dwarf_formsdata.c", "libdw/dwarf_formaddr.c", "libdw/dwarf_formref.c", "libdw/dwarf_formblock.c", "libdw/dwarf_formflag.c", "libdw/dwarf_formstring.c", "libdw/libdwP.h:__libdw_addrx"]}
{"id": "C50", "title": "Abbreviation declarations are decoded as written and found by their code", "statement": "Every declaration of an abbreviation table is decoded with its code, tag, children flag and attributes as written, and looking up a code in a unit returns the declaration with that code, whatever lookups came before.", "quantifier": "every abbreviation table, code and history of lookups", "why_tests_cant": "the cache built by earlier lookups depends on their order; all tables and encodings", "anchors": ["libdw/dwarf_getabbrev.c:__libdw_getabbrev", "libdw/dwarf_tag.c:__libdw_findabbrev", "libdw/libdw_abbrev"]}
{"id": "C51", "title": "Children and siblings of an entry are those of the tree", "statement": "In every unit that encodes a tree of entries, dwarf_child gives the first child of an entry or reports that there is none, dwarf_siblingof gives the next sibling or reports that there is none, and walking the unit by the two visits every entry exactly once in order.", "quantifier": "every tree of entries, every encoding of it, with or without sibling attributes", "why_tests_cant": "all tree shapes, depths and encodings; skipping children needs a nested walk", "anchors": ["libdw/dwarf_child.c:dwarf_child", "libdw/dwarf_siblingof.c:dwarf_siblingof", "libdw/libdwP.h:__libdw_dieabbrev"]}
{"id": "C52", "title": "The attributes of an entry are those encoded", "statement": "dwarf_attr finds the first attribute with the given name and its value, or nothing if there is none; dwarf_hasattr agrees; dwarf_getattrs hands every attribute to the callback in order, and an interrupted call resumes with the attribute that interrupted it.", "quantifier": "every entry, name, callback and stopping point", "why_tests_cant": "all declarations, values and callbacks", "anchors": ["libdw/dwarf_attr.c", "libdw/dwarf_hasattr.c", "libdw/dwarf_getattrs.c", "libdw/dwarf_child.c:__libdw_find_attr"]}
{"id": "C53", "title": "Looking up the source line of an address", "statement": "dwarf_getsrc_die on a unit whose line table was read gives, for every address, the line of the row that is in force there: the last row of the table at or below the address, unless that row ends a sequence, in which case (and when all rows are above the address) it fails with 'address out of range'. For programs whose sequences are ascending and disjoint this is the row of the program whose address range, up to the next row of its sequence, contains the address. The search ends and reads nothing outside the table.", "quantifier": "all line tables that any input whatever can produce, all addresses; all programs of disjoint ascending sequences in any order", "why_tests_cant": "a binary search over a merged and sorted table must be right for every table length, every duplicate address and every order of the sequences", "anchors": ["libdw/dwarf_getsrc_die.c:dwarf_getsrc_die", "libdw/dwarf_getsrclines.c:compare_lines", "libdw/dwarf_getsrclines.c:read_srclines"]}
{"id": "C54", "title": "Archive members are reported with the header fields of the file", "statement": "For a well-formed archive, elf_begin/elf_next/elf_getarhdr report every member once and in order, with its place, contents, size, name, date, owner, group and mode.", "quantifier": "every well-formed archive (System V / GNU), mapped or read, at the start of the file or inside another archive", "why_tests_cant": "combinatorial: any number of members, any names, sizes, padding and table of long names", "anchors": ["libelf/elf_begin.c:__libelf_next_arhdr_wrlock", "libelf/elf_begin.c:dup_elf", "libelf/elf_next.c:elf_next", "libelf/elf_getarhdr.c:elf_getarhdr"]}
{"id": "C55", "title": "Symbol numbers enumerate both symbol tables exactly once, local symbols first", "statement": "dwfl_module_getsym hands out, for the numbers below the count given by dwfl_module_getsymtab, every symbol of the main and of the auxiliary table exactly once (the auxiliary null symbol only if there is no main table), and the numbers below dwfl_module_getsymtab_first_global are exactly the local ones.", "quantifier": "every size and number of local symbols of both tables, every symbol number", "why_tests_cant": "all combinations of table sizes; off-by-one errors at the four boundaries", "anchors": ["libdwfl/dwfl_module_getsym.c:__libdwfl_getsym", "libdwfl/dwfl_module_getdwarf.c:dwfl_module_getsymtab", "libdwfl/dwfl_module_getdwarf.c:dwfl_module_getsymtab_first_global"]}
{"id": "C56", "title": "An update with nothing changed leaves the file alone", "statement": "elf_update with ELF_C_WRITE on a descriptor in which nothing has been marked as changed leaves every byte of the file as it is; in particular a second elf_update directly after a successful one does not change the file again.", "quantifier": "all files, layouts, sets of sections and buffers, and contents of the file, in both ways of writing", "why_tests_cant": "needs every combination of flags, layouts and section orders; a test checks some files", "anchors": ["libelf/elf32_updatefile.c:__elf32_updatefile", "libelf/elf32_updatefile.c:__elf32_updatemmap", "libelf/elf32_updatefile.c:fill_mmap"]}
{"id": "C57", "title": "The address ranges of an entry are those its attributes denote", "statement": "dwarf_ranges enumerates, for an entry with a low and a high pc, exactly that range, and for an entry with a range list exactly the ranges the list denotes (offsets relative to the base address in force, indexed addresses, starts with lengths), in order; for an entry with neither it reports none. dwarf_haspc says whether an address lies in one of them. On damaged lists the walk ends and nothing outside the section is read.", "quantifier": "every entry, list, format (DWARF 2 to 5), byte order, address and offset size; for the last sentence every section contents", "why_tests_cant": "all lists and encodings; the base address carries over between calls", "anchors": ["libdw/dwarf_ranges.c:dwarf_ranges", "libdw/dwarf_ranges.c:__libdw_read_begin_end_pair_inc", "libdw/dwarf_haspc.c:dwarf_haspc", "libdw/dwarf_highpc.c", "libdw/libdwP.h:__libdw_cu_ranges_base"]}
{"id": "C58", "title": "The locations of an attribute are those its location list gives", "statement": "dwarf_getlocations enumerates exactly the ranges of an attribute's location list, each with its expression, in order, or the single expression the attribute holds; dwarf_getlocation_addr reports exactly the entries whose range contains the address, up to the number asked for. On damaged lists the walk ends and reported expressions lie in the section.", "quantifier": "every list, format (DWARF 2 to 5 and the split format of DWARF 4), byte order, size and address; for the last sentence every section contents", "why_tests_cant": "all lists and encodings; lengths up to the largest encodable", "anchors": ["libdw/dwarf_getlocation.c:dwarf_getlocations", "libdw/dwarf_getlocation.c:dwarf_getlocation_addr", "libdw/dwarf_getlocation.c:getlocations_addr", "libdw/libdwP.h:__libdw_cu_locs_base"]}
{"id": "C59", "title": "Call frame information entries are enumerated as encoded", "statement": "dwarf_next_cfi reports, for every entry of a .debug_frame or .eh_frame section and in order, whether it is a CIE or an FDE, with exactly the encoded fields (augmentation string and data, alignment factors, return address register, CIE offset, contents, instructions) and the offset of the next entry, and ends behind the last one. On damaged sections each call moves forward, nothing outside the section is read, and what is reported lies inside the entry.", "quantifier": "every section, 32- and 64-bit format, byte order, address size, version and augmentation; for the last sentence every section contents and offset", "why_tests_cant": "all encodings and all damaged inputs; a wrong bound shows only on the one input that meets it", "anchors": ["libdw/dwarf_next_cfi.c:dwarf_next_cfi", "libdw/encoded-value.h:encoded_value_size"]}
{"id": "C60", "title": "The frame lookup by address finds the FDE that covers the address", "statement": "dwarf_cfi_addrframe finds, for any address and after any sequence of earlier lookups, the FDE whose range contains the address, with the data of its CIE, or reports that there is none; the answer is the same with the search table of .eh_frame_hdr as without it; the frame handed out has the rules of the row of that FDE's table that contains the address.", "quantifier": "every section with non-overlapping FDEs, every history of lookups, every well-formed search table", "why_tests_cant": "the cache makes each answer depend on the whole history of lookups, and a binary search must be right for every table", "anchors": ["libdw/dwarf_cfi_addrframe.c:dwarf_cfi_addrframe", "libdw/fde.c:__libdw_find_fde", "libdw/fde.c:intern_fde", "libdw/fde.c:binary_search_fde", "libdw/cie.c:intern_new_cie", "libdw/cie.c:__libdw_find_cie", "libdw/dwarf_getcfi_elf.c:parse_eh_frame_hdr"]}
{"id": "C61", "title": "A frame expression evaluates to what the DWARF stack machine yields", "statement": "The evaluation of a call frame expression while unwinding (which every unwound register and CFA goes through) returns the value the DWARF stack machine yields for the expression, with the registers the frame knows and the memory the process callbacks read; it never returns another value, and never has undefined behaviour or runs on forever; it fails for an expression that needs an unknown register, unreadable memory, an empty stack, an operation that is not usable, a branch to a place that is not an instruction, more than 256 stack entries or more than 4096 operations.", "quantifier": "every expression, register file, memory and byte order, in both classes", "why_tests_cant": "all expressions, loops included, with every value of every register", "anchors": ["libdwfl/frame_unwind.c:expr_eval", "libdwfl/frame_unwind.c:state_get_reg", "libdwfl/frame_unwind.c:__libdwfl_frame_reg_get", "libdwfl/frame_unwind.c:do_push", "libdwfl/frame_unwind.c:bra_compar"]}
{"id": "C62", "title": "One step of unwinding computes the caller's registers and pc", "statement": "With call frame information that covers the pc, the frame of the caller has exactly the registers that have a value by the rules of the row for the pc (kept registers, registers saved at or computed from the CFA, copies of other registers, values of expressions), each with that value, cut to the address bits for the return address and to 32 bits in a 32-bit process; its pc is the value of the return address register, and undefined when that has no value or is 0; the frame is a signal frame exactly if the CIE says so. No value is made up. Without covering information no frame is made.", "quantifier": "every section, search table, history of lookups, address, register file, memory, byte order and backend numbering", "why_tests_cant": "the result depends on every rule of every register together with the contents of registers and memory", "anchors": ["libdwfl/frame_unwind.c:handle_cfi", "libdwfl/frame_unwind.c:new_unwound", "libdwfl/frame_unwind.c:__libdwfl_frame_reg_set", "libdw/dwarf_frame_register.c:dwarf_frame_register", "libdw/dwarf_frame_cfa.c:dwarf_frame_cfa"]}
{"id": "C63", "title": "Walking the frames of a thread visits exactly the chain of callers", "statement": "dwfl_thread_getframes calls the callback for the first frame, which has the registers and the pc that were set, and then for the caller of each frame, in order, as long as the callback returns 0 and the caller has a pc; it returns the callback's number, 0 at a caller with an undefined pc, -1 if there is no caller. What the callback asks (dwfl_frame_pc with or without isactivation, dwfl_thread_getframes again) does not change what it sees. A frame is an activation if it is the first, a signal frame or called by one. The lookup uses the pc less 1 except for the first frame and signal frames, and asks .eh_frame, .debug_frame and the backend in this order. The thread is detached once and keeps no frames.", "quantifier": "every process (modules, registers, memory, backend) and every callback, with any interaction", "why_tests_cant": "the cached next frame makes each query depend on what was asked before; chains have any length", "anchors": ["libdwfl/dwfl_frame.c:dwfl_thread_getframes", "libdwfl/dwfl_frame.c:state_fetch_pc", "libdwfl/frame_unwind.c:__libdwfl_frame_unwind", "libdwfl/dwfl_frame_pc.c:dwfl_frame_pc", "libdwfl/dwfl_frame_regs.c:dwfl_thread_state_registers"]}
{"id": "C64", "title": "Unwinding without call frame information follows the frame pointers and ends", "statement": "Where there is no call frame information, the backends of x86-64, i386, PowerPC 64 and AArch64 report exactly the caller that the stack layout of the architecture gives (return address, frame or link register, stack pointer), no other register, and only if the stack pointer moves up; so a chain of such frames has an end.", "quantifier": "every register file and memory", "why_tests_cant": "needs all contents of registers and memory, with wrapping addresses", "anchors": ["backends/x86_64_unwind.c:x86_64_unwind", "backends/i386_unwind.c:i386_unwind", "backends/ppc64_unwind.c:ppc64_unwind", "backends/aarch64_unwind.c:aarch64_unwind", "libdwfl/frame_unwind.c:setfunc", "libdwfl/frame_unwind.c:getfunc", "libdwfl/frame_unwind.c:readfunc"]}
{"id": "C65", "title": "The global names of .debug_pubnames are reported as encoded", "statement": "dwarf_getpubnames calls the callback once for every name of every set, in order, with the name, the offset of its entry and the offset of the entry of its unit, until the callback returns something other than DWARF_CB_OK; then it returns the offset behind that entry, and a call with that offset goes on with the next name. It returns 0 when there are no more names. Whatever the section contains, the call ends, reads only inside the sections, and passes only names that are NUL-terminated inside the section.", "quantifier": "every .debug_pubnames and .debug_info section, every callback and every offset", "why_tests_cant": "the sets and names have any number and any bytes; the callback may stop anywhere", "anchors": ["libdw/dwarf_getpubnames.c:dwarf_getpubnames", "libdw/dwarf_getpubnames.c:get_offsets"]}
{"id": "C66", "title": "The scopes of an address are the entries around it", "statement": "dwarf_getscopes returns the innermost entry of the unit that contains the address, the entries around it from inside to outside, and the entry of the unit; behind the innermost inlined call come the entries around the function that is inlined. It returns 0 if no entry contains the address and -1 on an error. Whatever the entries are, the call ends and no assertion fails, also if units import each other.", "quantifier": "every tree of entries with imports of other units, every address, every answer of the functions that read entries", "why_tests_cant": "trees have any depth and width, units may import each other, and the search runs a second walk from inside the first", "anchors": ["libdw/dwarf_getscopes.c:dwarf_getscopes", "libdw/dwarf_getscopes.c:pc_record", "libdw/libdw_visit_scopes.c:__libdw_visit_scopes"]}
{"id": "C67", "title": "The scopes of an entry are the entries around it", "statement": "dwarf_getscopes_die returns the entry, the entries around it from inside to outside, and the entry of the unit, and 0 if the entry is not in the unit. Whatever the entries are, the call ends and no assertion fails.", "quantifier": "every tree of entries with imports of other units, every entry, every answer of the functions that read entries", "why_tests_cant": "trees have any depth and width and units may import each other", "anchors": ["libdw/dwarf_getscopes_die.c:dwarf_getscopes_die", "libdw/libdw_visit_scopes.c:__libdw_visit_scopes"]}
{"id": "C68", "title": "Attributes are inherited through abstract origins and specifications", "statement": "dwarf_attr_integrate finds an attribute of an entry if the entry has it, or the entry it refers to as its abstract origin or else as its specification has it, and so on, and for a split unit if its skeleton has it; otherwise it finds none. References in a circle end.", "quantifier": "every graph of entries, every attribute", "why_tests_cant": "entries refer to each other in any way, also in circles", "anchors": ["libdw/dwarf_attr_integrate.c:dwarf_attr_integrate"]}
{"id": "C69", "title": "Type aliases and qualifiers are peeled off", "statement": "dwarf_peel_type returns the type behind all typedefs and const, volatile, restrict, atomic, immutable, packed and shared qualifiers, and 1 with the last of them if that has no type. What it returns with 0 is none of them.", "quantifier": "every graph of type entries", "why_tests_cant": "types are nested to any depth and may refer to each other in circles", "anchors": ["libdw/dwarf_peel_type.c:dwarf_peel_type"]}
{"id": "C70", "title": "Sizes of types follow the rules of DWARF", "statement": "dwarf_aggregate_size gives the size the type has by its DW_AT_byte_size; for pointers and references the size of an address, for subranges that of their type, for arrays the product of the elements of all dimensions and the distance of the elements, with the bounds given or those of the language. It fails if the size is not known; every call ends, and none is undefined.", "quantifier": "every graph of type entries with any attributes", "why_tests_cant": "arrays have any number of dimensions and any bounds, types are nested to any depth and may be circular", "anchors": ["libdw/dwarf_aggregate_size.c:dwarf_aggregate_size", "libdw/dwarf_aggregate_size.c:array_size", "libdw/dwarf_default_lower_bound.c:dwarf_default_lower_bound", "libdw/dwarf_srclang.c:dwarf_srclang"]}
{"id": "C71", "title": "Macro entries are enumerated once, in order, and can be resumed", "statement": "dwarf_getmacros and dwarf_getmacros_off call the callback for every entry of the macro unit that is named, in order, with its opcode and with its operands at their forms and places, whether the opcode is standard or defined by the unit. When the callback returns something else than 0, a token is returned, and calling again with it goes on behind that entry, so that repeated calls show every entry exactly once, whatever calls were made before. Opcode 255 is shown to callers that ask for it and an error to others. No section, whatever its bytes, makes a call read outside of it.", "quantifier": "all units of .debug_macro of version 4 and 5 with any operand tables and entries, all .debug_macinfo lists, all callbacks and all schedules of stopping and resuming, all histories of earlier calls; for the last sentence all bytes", "why_tests_cant": "Operand tables, entries and stopping points combine without bound, and the tables that are kept make a call depend on every earlier one.", "anchors": ["libdw/dwarf_getmacros.c: dwarf_getmacros, dwarf_getmacros_off, read_macros, get_table_for_offset, get_macinfo_table, cache_op_table", "libdw/dwarf_macro_param.c", "libdw/libdw.h: DWARF_GETMACROS_START"]}
{"id": "C72", "title": "The lines of a source file are found", "statement": "dwarf_getsrc_file returns, for a file name, a line and a column, the lines of that file in all units that match best: the lines at the number, or else those at the nearest number above, and the same for columns; in the order of the tables, as many as there is room for, and it fails with DWARF_E_NO_MATCH if no unit has one. A number that is 0 matches all. A line that names no file of its table makes the call fail.", "quantifier": "all sequences of units with any line tables and file tables, shared or not; all file names, lines, columns and sizes of the caller's array", "why_tests_cant": "Which lines are best depends on all lines of all units, and what is kept while searching on every line before.", "anchors": ["libdw/dwarf_getsrc_file.c: dwarf_getsrc_file", "libdw/libdw.h: dwarf_getsrc_file"]}
{"id": "C73", "title": "Breakpoints at the entry of a function are inside of it", "statement": "dwarf_entry_breakpoints returns, for a function with line information, the addresses of the rows that are marked as the end of a prologue in each of its ranges; if none is marked, the second row of the lowest range; else the entry point. It never returns nothing, and what it returns is the entry point or the address of a row inside of one of the ranges. Without a line table it returns the entry point.", "quantifier": "all ordered line tables, all functions with one range or a list of any length, all entry points", "why_tests_cant": "Rows, marks and ranges combine without bound; where a binary search ends depends on the position and number of all rows.", "anchors": ["libdw/dwarf_entry_breakpoints.c: dwarf_entry_breakpoints, search_range, entrypc_bkpt"]}
{"id": "C74", "title": "The functions of a unit are enumerated once, in order, and can be resumed", "statement": "dwarf_getfuncs calls the callback for every function defined in a unit, in the order of the entries, and for nothing else: not for declarations, and not in units that are no compile units. When the callback stops, the value returned, passed as offset to another call, goes on behind that function, so that repeated calls show every function exactly once, wherever the callback stops. When there are no more, 0 is returned.", "quantifier": "all units, with functions nested to any depth and imported units, in C or other languages; all callbacks and all schedules of stopping and resuming; for what is shown also all entries that form no tree", "why_tests_cant": "Trees of entries have no bound, and what a call shows depends on where the one before was stopped.", "anchors": ["libdw/dwarf_getfuncs.c: dwarf_getfuncs, tree_visitor", "libdw/libdw_visit_scopes.c", "libdw/libdw.h: dwarf_getfuncs"]}
{"id": "C75", "title": "The inlined instances of a function are enumerated", "statement": "dwarf_func_inline_instances calls the callback for every concrete inlined instance of a function, in the order of the entries, and for nothing else, until the callback stops, and returns what it returned. dwarf_func_inline says of a function whether it is inlined.", "quantifier": "all units with instances nested to any depth, all callbacks; for what is shown also all entries that form no tree", "why_tests_cant": "Trees of entries have no bound.", "anchors": ["libdw/dwarf_func_inline.c: dwarf_func_inline_instances, dwarf_func_inline, scope_visitor", "libdw/libdw.h: dwarf_func_inline_instances"]}
{"id": "C76", "title": "A variable is looked up from the innermost scope outwards", "statement": "dwarf_getscopevar returns the first scope, from the innermost out, that has a variable or parameter of the name and is not one of the first ones that are to be skipped, with its entry; when a file, and with it a line or a column, is asked for, only one declared there. It returns -2 when there is none.", "quantifier": "all lists of scopes with any entries in them, all names, files, lines, columns and numbers of scopes to skip", "why_tests_cant": "Which entry is found depends on all entries of all scopes before it.", "anchors": ["libdw/dwarf_getscopevar.c: dwarf_getscopevar, file_matches, getattr", "libdw/libdw.h: dwarf_getscopevar"]}
{"id": "C77", "title": "Relocations are applied exactly once and only where they may be", "statement": "When a section of a relocatable file is relocated, each relocation of a simple type with a known symbol rewrites exactly its field with symbol + addend in the file's byte order, those of unknown type or with an undefined symbol are left, in order, and all other bytes stay; an offset outside the section is an error. Relocating again, after success or failure, changes nothing. Sections that overlap the headers of the file are refused.", "quantifier": "all relocation sections with and without addends, all contents of the section, byte orders, tables of types and symbol values, any number of calls", "why_tests_cant": "The result depends on every relocation before, and doing it twice would add twice; only chosen files are tested.", "anchors": ["libdwfl/relocate.c: relocate, relocate_section, __libdwfl_relocate_section, __libdwfl_relocate"]}
{"id": "C78", "title": "Symbols and load addresses used in relocation do not depend on what was asked before", "statement": "The value of a symbol of a relocatable file is its offset plus the address its section is loaded at, an absolute symbol's is its number, and an undefined one's is that of the first global definition of its name in the other modules, in order, or an error. Load addresses are the callback's whatever was asked before, and it is asked once for a section it gives an address for.", "quantifier": "all sequences of requests, all section headers, callbacks and biases; all symbol tables and lists of modules", "why_tests_cant": "Addresses are cached in the section headers: every order of requests must give the same answers.", "anchors": ["libdwfl/relocate.c: __libdwfl_relocate_value, relocate_getsym, resolve_symbol"]}
{"id": "C79", "title": "Addresses of a module are given back as the section that contains them and the offset in it", "statement": "dwfl_module_relocations and dwfl_module_relocation_info enumerate every loaded section of a relocatable module once, in the order of addresses; dwfl_module_relocate_address gives for an address in a section the index of that section and the offset in it, takes the end of a section as inside it unless another begins there, and returns -1 leaving the address alone when no section contains it. In a shared object it is the offset from the start, in an executable the address itself.", "quantifier": "all lists of section headers, all answers of the section_address callback, biases and addresses", "why_tests_cant": "The table is sorted and searched by bisection, so every layout of sections must be considered.", "anchors": ["libdwfl/derelocate.c: cache_sections, compare_secrefs, find_section, dwfl_module_relocations, dwfl_module_relocation_info, dwfl_module_relocate_address", "libdwfl/libdwfl.h: dwfl_module_relocate_address"]}
{"id": "C80", "title": "Reporting modules leaves exactly the modules reported, keeps their handles and frees the others once", "statement": "After dwfl_report_begin, any reports and dwfl_report_end the modules are those reported, each name with its addresses once, in the order of first reports; a module that was there before keeps its handle, the removed callback is called with exactly the modules not reported again and exactly those are freed. dwfl_report_begin_add keeps everything that is there. A callback that stops the end loses nothing: ending again goes on with the same module. dwfl_end frees every handle ever given out exactly once. A report that fails leaves the modules as they were.", "quantifier": "all histories of begin, begin_add, report, clashing report and end, all names and addresses, all callbacks", "why_tests_cant": "The list is relinked by every report depending on the whole history of marks, so only an argument over all histories covers it.", "anchors": ["libdwfl/dwfl_module.c: dwfl_report_begin, dwfl_report_begin_add, dwfl_report_module, use, dwfl_report_end", "libdwfl/dwfl_end.c: dwfl_end", "libdwfl/dwfl_report_elf.c: __libdwfl_report_elf"]}
{"id": "C81", "title": "Files reported to libdwfl get addresses where everything loaded is aligned, in range and apart", "statement": "A relocatable file reported with dwfl_report_elf or dwfl_report_offline begins at the first address from the base on that is a multiple of 256 and of every alignment of its loaded sections; they are laid out from there as they would be at 0, aligned, without overlap and within the module. A file whose sections have addresses is moved as a whole and stays aligned. The range of an executable or shared object has every loaded segment, moved by the bias. Files reported one after the other get ranges that do not overlap.", "quantifier": "all lists of section headers, program headers, bases and sequences of files", "why_tests_cant": "The layout is restarted when a later section wants more alignment, so all sequences of sizes and alignments matter.", "anchors": ["libdwfl/dwfl_report_elf.c: __libdwfl_elf_address_range, __libdwfl_report_elf, dwfl_report_elf", "libdwfl/offline.c: process_elf, dwfl_report_offline"]}
{"id": "C82", "title": "Checksums of files and sections are the CRC-32 of the bytes, however they are read", "statement": "The checksum used for separate debug files is the CRC-32 of the bytes as the polynomial defines it, whatever pieces they are given in and however the system maps or reads the file; it fails only if a read fails. Files that differ only within four adjacent bytes have different checksums. elf_checksum is the CRC-32 of the contents of the sections that strip keeps, so stripping does not change it.", "quantifier": "all byte strings and ways to cut them, all answers of mmap, mremap-like calls and pread, all lists of sections", "why_tests_cant": "The table must agree with the polynomial for every register and byte, and short reads and partial mappings differ from system to system.", "anchors": ["lib/crc32.c: crc32", "lib/crc32_file.c: crc32_file", "libelf/elf32_checksum.c: elf32_checksum, elf64_checksum"]}
{"id": "C83", "title": "Links to separate debug files, build IDs and GNU compressed sizes are found exactly as the file has them", "statement": "dwelf_elf_gnu_debuglink and dwelf_dwarf_gnu_debugaltlink give the name and the checksum or build ID exactly if the section has them, and never a name without its terminating NUL in the section. dwelf_elf_gnu_build_id gives the first GNU build ID note of the first note section that has one (of the segments in a file without sections), with the right bytes, length and address, and never anything outside the data. dwelf_scn_gnu_compressed_size gives the size in the header or -1.", "quantifier": "all lists of sections and segments, all contents of sections", "why_tests_cant": "The contents come from files that may be damaged or hostile; every position of the NUL and every sequence of notes matters.", "anchors": ["libdwelf/dwelf_elf_gnu_debuglink.c: dwelf_elf_gnu_debuglink", "libdwelf/dwelf_dwarf_gnu_debugaltlink.c: dwelf_dwarf_gnu_debugaltlink", "libdwelf/dwelf_elf_gnu_build_id.c: dwelf_elf_gnu_build_id, __libdwfl_find_elf_build_id", "libdwelf/dwelf_scn_gnu_compressed_size.c: dwelf_scn_gnu_compressed_size"]}
{"id": "C84", "title": "The search for a separate debug file looks where it should and accepts only a file that belongs to the module", "statement": "dwfl_standard_find_debuginfo and dwfl_build_id_find_debuginfo look by build ID first, under the documented name in the absolute directories of the path, then by name in each element of the path in order; a file is accepted only if it has the module's build ID (or that of the alternate file), or without one, the checksum of the debug link unless the path or the link say otherwise, and is not the main file. Every descriptor opened is closed once or given back.", "quantifier": "all search paths, file names, debug links, build IDs and contents of the file system", "why_tests_cant": "The loop over path elements and subdirectories with its jumps and error codes has unboundedly many cases of names and files.", "anchors": ["libdwfl/find-debuginfo.c: dwfl_standard_find_debuginfo", "libdwfl/dwfl_build_id_find_debuginfo.c: dwfl_build_id_find_debuginfo", "libdwfl/dwfl_build_id_find_elf.c: __libdwfl_open_by_build_id"]}
{"id": "C85", "title": "nlist gives every name the last symbol of that name, and zeros when it has none", "statement": "nlist looks at the first SHT_SYMTAB section, or without one at the last SHT_DYNSYM section. For every name in the caller's list, up to the null or empty name that ends it, it stores the value, section and type of the last symbol of that name, or zeros if no symbol has it, and returns 0. On any failure it zeroes every request and returns -1. Entries at and after the end of the list do not change.", "quantifier": "all files (lists of sections and symbol tables), all lists of names, all failures of the calls it makes", "why_tests_cant": "The answer depends on hash values, collisions and the order of any number of symbols in a table of fixed size; the wrong cases are rare names.", "anchors": ["libelf/nlist.c: nlist", "lib/fixedsizehash.h: fshash_init, fshash_lookup, fshash_overwrite, fshash_find"]}
{"id": "C86", "title": "The program header table has the size last asked for, cleared, and elf_getphdrnum says so", "statement": "Over every history of elf_newehdr, elf_newscn, elf_newphdr and stores into the table, elf_newphdr with a count other than zero gives a table of that many cleared program headers or fails and changes nothing; a count of zero removes the table; elf_getphdrnum gives the number of the last call that worked, also for counts of 65535 and more, which need section zero. The calls are safe in any order and for files opened with any command.", "quantifier": "all histories of calls, counts, allocation failures, both classes; all states of an opened file", "why_tests_cant": "The number is kept in two places with a threshold, and the calls depend on what earlier calls have read or mapped; histories are unbounded.", "anchors": ["libelf/elf32_newphdr.c: elf32_newphdr", "libelf/elf_getphdrnum.c: elf_getphdrnum", "libelf/elf32_newehdr.c: elf32_newehdr", "libelf/elf_newscn.c: elf_newscn"]}
{"id": "C87", "title": "gelf_offscn finds the section whose bytes start at an offset", "statement": "elf32_offscn, elf64_offscn and gelf_offscn give the first section with bytes in the file that starts at the offset; if only sections without bytes start there, the last of them; and an error exactly if none starts there. Headers that were not read yet are read first.", "quantifier": "all lists of sections in any number of blocks, all offsets, read or unread headers", "why_tests_cant": "Empty and NOBITS sections share offsets with their neighbours in any number and order, across the blocks of the section list.", "anchors": ["libelf/elf32_offscn.c: elf32_offscn", "libelf/gelf_offscn.c: gelf_offscn"]}
{"id": "C88", "title": "dwfl_linux_proc_maps_report reports one module for each run of lines of a file", "statement": "For a maps file in the format of the kernel, the modules reported are exactly the special mapping and one module for each largest run of lines of the same device and inode, with the name and start of the first and the end of the last line; ascending lines give ascending modules that contain their lines. A line that cannot be read ends it with ENOEXEC after the complete runs. The report succeeds exactly if each module is accepted. The special mapping and page size are the last ones of the auxiliary vector, of any length, in the class of the process.", "quantifier": "all maps files of any number of lines, all texts of lines, all auxiliary vectors, all outcomes of single reports", "why_tests_cant": "Processes have any number of mappings in any order of files, anonymous memory and special pages; the auxiliary vector may cross the 1024-byte buffer.", "anchors": ["libdwfl/linux-proc-maps.c: proc_maps_report, do_report, grovel_auxv"]}
{"id": "C89", "title": "The units of a module are the same for traversal and for look-up by address", "statement": "In any history of dwfl_module_nextcu and dwfl_module_addrdie, the traversal gives every unit in the order of the section and ends after the last, an address covered by a range gives the unit of that range, an address is out of range exactly before the first range or after the last, and one unit is always given as one and the same entry.", "quantifier": "all sequences of units, all sorted lists of ranges, all interleavings of the two calls of any length", "why_tests_cant": "Units are made on first use through either call, and a counter decides when the table of units may be thrown away; the effect depends on the whole history.", "anchors": ["libdwfl/cu.c: addrarange, intern_cu, less_lazy, __libdwfl_nextcu, arangecu, __libdwfl_addrcu", "libdwfl/dwfl_module_addrdie.c: dwfl_module_addrdie", "libdwfl/dwfl_module_nextcu.c: dwfl_module_nextcu"]}
{"id": "C90", "title": "A file rebuilt from the memory of a process is the file", "statement": "The image made from the memory of a process where a file is mapped has the bytes of the file in every segment, zero in what no page of a segment covers, the header of the file, without its section table if that is not in the image, and comes with the address the file is loaded at. No memory outside the image is written, and no image is given if a part of a segment could not be read.", "quantifier": "all page sizes, program headers, contents of the file and of memory, section tables and failures of reading", "why_tests_cant": "The size of the image, the trimming of the last page, the order of the segments and the wrap of sums interact; a hostile process chooses all of them.", "anchors": ["libdwfl/elf-from-memory.c: elf_from_remote_memory"]}
{"id": "C91", "title": "Memory read from a core file is the memory of the process", "statement": "The bytes the memory callback for core files gives for an address are the bytes of the process at that address and after it, also across segments that follow one another; bytes that are in the core file are found, at least as many as were asked for; a buffer of the caller is not overrun; a string ends with its only terminator; and an address outside the segments is refused.", "quantifier": "all program headers of a core file, contents, addresses, sizes asked for, buffers, and core files that are mapped or not or are cut short", "why_tests_cant": "Segments are joined when they are next to each other in the file and in memory, and a part of a segment may be missing in the file; whether the bytes are the right ones depends on the whole list of segments.", "anchors": ["libdwfl/core-file.c: dwfl_elf_phdr_memory_callback, do_more, update_end"]}
{"id": "C92", "title": "A compressed file or boot image opens as the file inside", "statement": "Opening a file gives the ELF file or archive that is meant: the file itself, the data it is the gzip, bzip2, xz or lzma form of, or the payload of a Linux boot image, plain or compressed. The data is complete or there is an error, however the library and the reads cut the work up, no buffer is overrun, decompression ends, and the descriptor is closed exactly when it is not needed any more or the caller asked for that on failure.", "quantifier": "all contents of files, all decoders that keep to a stream, all patterns of steps, reads and failures of realloc, mapped or not", "why_tests_cant": "The loop depends on how the library splits its output, on the sizes of buffers and on failures of realloc; tests try a few files with one version of a library and enough memory.", "anchors": ["libdwfl/gzip.c: unzip, bigger_buffer, fail", "libdwfl/open.c: decompress, what_kind, libdw_open_elf", "libdwfl/image-header.c: __libdw_image_header"]}
{"id": "C93", "title": "The threads of a core file are each seen once, with their own registers", "statement": "After attaching to a core file, going through its threads calls the callback once for each thread with a status note, in order, until the callback says other than 0, and gives what it said; asking for one thread calls it for that thread and no other, or fails. Every register of a thread is the number at its place in the note of that thread and registers that the note does not have stay unset. A word of memory is read as the core holds it, or refused. This holds also when the callback itself looks at threads, when a pid is 0, when registers are named twice and when pages were left out of the core.", "quantifier": "all lists of notes and what the backend says of them, all callbacks, all register locations, all program headers and contents of core files, all addresses", "why_tests_cant": "It depends on the order and damage of notes, on what callbacks do, on overlaps of register locations and on the layout of segments; tests use a few cores of one machine.", "anchors": ["libdwfl/linux-core-attach.c: core_next_thread, core_set_initial_registers, core_memory_read, dwfl_core_file_attach", "libdwfl/dwfl_frame.c: dwfl_getthreads, getthread, get_one_thread_cb"]}
{"id": "C94", "title": "A live process is read as it is and left as it was found", "statement": "While a thread of a live process is attached for unwinding, every read of its memory gives the word that is in memory at that time, also after the process has run in between, and fails if and only if it cannot be read, whatever is cached; for a process of 32 bits it gives a word of 32 bits. Attaching gives to the thread every signal that arrives meanwhile, and ends with the thread under trace and stopped, or with failure and the thread not traced. After the frames of a thread were walked or could not be, the thread is not traced any more and was left stopped if it was stopped; and if the caller has stopped the threads, nothing is asked of the kernel.", "quantifier": "all histories of reads and of changes of memory in between, all memories, both byte orders, with and without process_vm_readv, all sequences of what waitpid says and of failures of ptrace, all sequences of threads", "why_tests_cant": "It depends on what stands in the cache, on signals that race with attaching, and on failures of ptrace at each step; tests attach to a quiet process of their own.", "anchors": ["libdwfl/linux-pid-attach.c: read_cached_memory, clear_cached_memory, pid_memory_read, __libdwfl_ptrace_attach, __libdwfl_ptrace_detach, pid_set_initial_registers, pid_thread_detach", "libdwfl/dwfl_frame.c: dwfl_thread_getframes"]}
{"id": "C95", "title": "The debugging sections of a file are the ones that are meant", "statement": "Opening the debugging information of an ELF file takes for each debugging section the first section of the file with that name, plain, with the suffix .dwo or in the old compressed form, that is not in a section group, has data that can be had and is not empty, and no other section; it succeeds if all sections can be read and there is .debug_info, .debug_line or .debug_frame, and else says that there is no such information or that the file is invalid. With a section group, the sections are those of the group. Nothing outside the data is read.", "quantifier": "all lists of sections with all names, flags, failures of decompression and of reading, all contents of section groups", "why_tests_cant": "Names, order, duplicates, compression and groups combine freely; tests use files that compilers make, which have each section once.", "anchors": ["libdw/dwarf_begin_elf.c: dwarf_begin_elf, check_section, global_read, scngrp_read, valid_p"]}
{"id": "C96", "title": "Memory given out by a Dwarf handle is aligned, large enough and never overlaps", "statement": "For every sequence of requests for memory that reading debugging information makes on one handle, each piece is aligned as asked, has the size asked for, lies within memory obtained for the handle, and does not overlap any other piece given out by it, so that what the library has decoded is not changed by what it decodes later.", "quantifier": "all histories of requests with all sizes, numbers and alignments, all addresses that malloc gives, all sizes of the first block", "why_tests_cant": "It depends on what is left in the last block, on padding and on the addresses of malloc over a long history, and on sizes that wrap.", "anchors": ["libdw/libdw_alloc.c: __libdw_allocate", "libdw/libdwP.h: libdw_alloc, libdw_typed_alloc", "libdw/dwarf_begin_elf.c: dwarf_begin_elf"]}
{"id": "C97", "title": "strings prints every string of the input once, whole and where it is", "statement": "The program strings prints, for each of the parts of the input it looks at (the allocated sections of an ELF file, or all of the input), exactly the runs of printable characters of at least the length asked for that a byte not printable ends, whole, in order, once each, and with their offset, whatever the way in which the input is mapped or read in pieces, and for every width of the characters.", "quantifier": "all inputs, all lengths asked for, all locales (tests for a printable byte), all lists of sections, all ways in which read splits the input, all widths and byte orders of characters", "why_tests_cant": "A string may lie anywhere against the ends of the pieces that are read, and sections in any order against what is mapped; tests have few inputs and one way of reading them.", "anchors": ["src/strings.c: process_chunk, process_chunk_mb, read_block_no_mmap, read_block, read_elf"]}
{"id": "C98", "title": "The index that ranlib writes leads to the member that defines each symbol", "statement": "After ranlib has run on an archive, the archive has the same members in the same order, preceded by an index; reading the index with elf_getarsym gives every symbol that the members define, in order, each with the offset at which the member that defines it is in the new file. An archive whose members define no symbol has no index afterwards and its members are not changed.", "quantifier": "all archives: all members of all sizes, all symbols, wherever an old index is or none, mapped or read", "why_tests_cant": "The offsets depend on the size of the index itself, on paddings, on where an old index was and on sums that wrap; a test covers a few archives.", "anchors": ["src/ranlib.c: handle_file", "src/arlib.c: arlib_init, arlib_finalize, arlib_add_symref, arlib_add_symbols", "libelf/elf_getarsym.c: elf_getarsym"]}
{"id": "C99", "title": "The sizes that size prints are the sums over the loaded sections, in every format", "statement": "For every file, size in its BSD format prints as text, data and bss the sums of the sizes of the loaded sections that are read-only, writable with contents and writable without, and as the total the sum over all loaded sections; the System V formats list each loaded section once, in order, with its size and the same total; the totals over several files are the sums over the files.", "quantifier": "all files: all lists of sections with all flags, types and sizes, and all lists of files", "why_tests_cant": "Sums over any number of sections and files that may wrap or be shown as negative numbers; tests have small files.", "anchors": ["src/size.c: show_bsd, show_bsd_totals, show_sysv, show_sysv_one_line"]}
{"id": "C100", "title": "After elf_cntl with ELF_C_FDREAD a handle and the open members give the same bytes without the descriptor", "statement": "Once elf_cntl with ELF_C_FDREAD has returned 0, every read inside the handle, and inside every open handle of a member of the archive or of a member of a member, gives the bytes the file had at that time, whatever becomes of the file descriptor; a call that fails changes nothing, and after a call that is done further calls fail. ELF_C_FDDONE keeps every handle from reading the descriptor again (false: handles of members go on reading it). elf_rawfile gives exactly the bytes of the handle, again and again, and leaves where a member lies in its archive (elf_getaroff) as it was (false if a member is read by itself).", "quantifier": "all files, all trees of archive and member handles, all places inside them, and all contents the descriptor may give afterwards", "why_tests_cant": "Archives may be nested to any depth and a descriptor may be reused for any other file; tests do one archive and keep the descriptor open.", "anchors": ["libelf/elf_cntl.c: elf_cntl", "libelf/elf_readall.c: __libelf_readall, set_address", "libelf/elf_rawfile.c: elf_rawfile", "libelf/elf_getaroff.c: elf_getaroff", "libelf/elf_getbase.c: elf_getbase"]}
