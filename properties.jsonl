{"id": "C01", "title": "Hash table behaves as a finite map", "statement": "After any sequence of table_put / table_delete / table_get / table_try_get calls on a table, every lookup of a key returns exactly the value of the last put of that key that was not followed by a delete (or 'absent'), table_put reports 'new' and table_delete reports 'found' exactly as a finite map would, every probe terminates, and growing the table never loses or resurrects an entry.", "quantifier": "all sequences of operations of any length, all keys and hash values (including adversarial collisions), all table capacities reached", "why_tests_cant": "collisions, tombstones and rehash interact over unbounded histories; a unit test fixes one history and one hash pattern", "anchors": ["src/util/table.c: table_init, find_entry, adjust_capacity, table_get, table_try_get, table_put, table_delete", "src/util/table.h: Table, TableEntry"]}
{"id": "C02", "title": "Table iteration visits each live entry exactly once", "statement": "Iterating a table with table_iterate from 0 until -1 yields every live (key,value) pair exactly once, nothing else, and terminates, whatever deletions and growth happened before.", "quantifier": "all tables reachable by any operation history", "why_tests_cant": "depends on the whole history (tombstones left behind, capacity changes)", "anchors": ["src/util/table.c: table_iterate"]}
{"id": "C03", "title": "Name interning gives pointer identity for equal spellings", "statement": "Two calls of alloc_name return the same Name exactly when the byte strings are equal, regardless of everything interned before or in between; so comparing Name pointers is comparing identifiers.", "quantifier": "all sequences of interned byte strings", "why_tests_cant": "needs every pair of strings, including hash collisions, and every table history", "anchors": ["src/util/table.c: alloc_name, find_name_table, hash_string", "src/util/table.h: equal_name"]}
{"id": "C04", "title": "Vector refines a list", "statement": "Any sequence of vec_push, vec_pop, vec_insert, vec_remove_at, vec_clear and vec_concat leaves the vector with exactly the elements the corresponding list operations give, never writes outside its allocation, and vec_pop on an empty vector returns NULL and changes nothing.", "quantifier": "all operation sequences, all lengths and indices (including out-of-range ones)", "why_tests_cant": "growth boundaries and index edge cases over unbounded sequences", "anchors": ["src/util/util.c: vec_push, vec_pop, vec_insert, vec_remove_at, vec_concat, vec_clear, vec_contains"]}
{"id": "C05", "title": "Data buffer operations refine byte-list operations", "statement": "Any sequence of appends, insertions at a position, alignment, LEB and string emissions on a data buffer leaves exactly the bytes that the corresponding list operations give; an insertion shifts later bytes without altering any of them.", "quantifier": "all operation sequences, all buffer lengths, all positions", "why_tests_cant": "reallocation and memmove-style insertion depend on capacity history", "anchors": ["src/util/util.c: data_reserve, data_insert, data_append, data_push, data_align, data_concat, data_string"]}
{"id": "C06", "title": "LEB128 encoders are inverted by the standard decoder", "statement": "The bytes emitted for a signed (unsigned) 64-bit value by data_leb128 (data_uleb128) decode, under the WebAssembly definition of LEB128, to that value and leave the following bytes untouched; the encoding fits in the encoder's local buffer; data_varuint32 always emits exactly five bytes that decode to the 32-bit value.", "quantifier": "all 64-bit values and all following byte strings", "why_tests_cant": "2^64 values and all suffixes", "anchors": ["src/util/util.c: data_leb128, data_uleb128, data_varuint32"]}
{"id": "C07", "title": "The wasm linker's LEB128 readers invert the writers", "statement": "Reading with the linker's read_uleb128/read_leb128 what data_uleb128/data_leb128 wrote gives back the number written and a pointer just past it.", "quantifier": "all 32/64-bit values and all following bytes", "why_tests_cant": "the failing values are those with specific high bits or negative sign", "anchors": ["src/wcc/wasm_linker.c: read_leb128, read_uleb128"]}
{"id": "C08", "title": "Nested length-prefixed chunks are well formed", "statement": "For any properly nested use of data_open_chunk/data_close_chunk with arbitrary writes in between, the resulting bytes parse as nested sections: each chunk is its (LEB128) size followed by exactly that many bytes, although prefixes are inserted after the fact and shift everything behind them.", "quantifier": "all nestings of any depth and all contents of any size", "why_tests_cant": "length prefixes change size at 128, 16384, ... and nest", "anchors": ["src/util/util.c: data_open_chunk, data_close_chunk", "src/wcc/emit_wasm.c"]}
{"id": "C09", "title": "String escaping round-trips through the assembler", "statement": "The assembler reads the quoted literal the compiler printed for any byte string (all byte values, any length, with embedded NULs and hex-looking neighbours) back as exactly that byte string.", "quantifier": "all byte strings", "why_tests_cant": "escapes interact with the following character; all 256^n strings", "anchors": ["src/util/util.c: escape_string", "src/as/parse_asm.c: unescape_char, unescape_string"]}
{"id": "C10", "title": "Integer narrowing is C conversion", "statement": "wrap_value(v, size, unsigned) is the value C gives when converting v to the integer type of that size and signedness: congruent modulo 2^(8*size) and within the type's range; it is idempotent.", "quantifier": "all 64-bit values, all sizes and signedness", "why_tests_cant": "2^64 inputs", "anchors": ["src/util/util.c: wrap_value"]}
{"id": "C11", "title": "Path joining resolves '.' and '..' lexically", "statement": "join_paths returns the lexically normalised concatenation of its arguments: walking the result component by component reaches the same directory as walking the inputs one after the other (an absolute later component restarting the walk where the code says so), it contains no '.' or inner '..' component, and it is NULL exactly when the walk would climb above the root.", "quantifier": "all lists of path strings", "why_tests_cant": "unboundedly many combinations of '.', '..', empty and absolute components", "anchors": ["src/util/util.c: join_paths, is_fullpath"]}
{"id": "C12", "title": "Line continuation keeps text and line numbers", "statement": "Reading a file with getline_cont returns logical lines whose concatenation is the file with every backslash-newline removed, and after each call the line counter equals the number of physical lines consumed.", "quantifier": "all files and all interleavings of continued and plain lines", "why_tests_cant": "the counter is accumulated over the whole file", "anchors": ["src/util/util.c: getline_chomp, getline_cont"]}
{"id": "C13", "title": "Conditional groups select exactly the C-standard branches", "statement": "In files whose comments end on the line they start on: for any nesting of #if/#ifdef/#ifndef/#elif/#else/#endif, a text line or other directive is processed exactly when every enclosing group is the first one of its section whose condition is true (or the #else of a section with none true); mismatched #else/#elif/#endif and unclosed #if are rejected.", "quantifier": "all sequences of lines, all nesting depths, all condition values", "why_tests_cant": "nesting and elif chains are unbounded", "anchors": ["src/cpp/preprocessor.c: process_directive, cond_value, get_processed_next_line"]}
{"id": "C14", "title": "#if expressions are evaluated with C precedence and 64-bit arithmetic", "statement": "Evaluating the token sequence of any well-formed #if expression whose operands have signed type, with no signed overflow in any operand, yields the value of that expression under C's operator precedence and associativity in intmax_t; a sequence the C grammar does not derive is not accepted, and evaluation always ends.", "quantifier": "all expression trees and all literal values", "why_tests_cant": "infinitely many expressions; precedence mistakes only show for particular operator pairs", "anchors": ["src/cpp/pp_parser.c: parse_precedence, binary, unary, ternary, grouping, get_rule, pp_expr"]}
{"id": "C15", "title": "Macro expansion terminates", "statement": "Expanding any token sequence under any set of object-like macro definitions, including directly or mutually recursive ones, terminates.", "quantifier": "all macro tables and all input token sequences", "why_tests_cant": "non-termination cannot be observed by a test, and the claim is over all macro tables", "anchors": ["src/cpp/macro.c: macro_expand, subst, hsadd"]}
{"id": "C16", "title": "Macro expansion does not depend on earlier expansions", "statement": "The expansion of a token sequence depends only on the macro definitions in force, not on what was expanded before.", "quantifier": "all macro tables and all histories of earlier expansions", "why_tests_cant": "the state carried over (hide sets attached to shared body tokens) only matters for particular histories", "anchors": ["src/cpp/macro.c: hsadd, set_token_hideset, get_hideset, subst"]}
{"id": "C17", "title": "Operators are tokenised by maximal munch", "statement": "At every position the lexer takes the longest C operator or punctuator that is a prefix of the remaining text, and repeated lexing consumes exactly the characters of the operators returned.", "quantifier": "all character sequences", "why_tests_cant": "all strings of operator characters", "anchors": ["src/cc/frontend/lexer.c: get_op_token, kMultiOperators, kOperatorMap, kPunctMap"]}
{"id": "C18", "title": "Struct and union layout is sound", "statement": "In every struct each member lies at an offset that is a multiple of its alignment, members do not overlap and lie inside the struct, offsets are the smallest possible in declaration order, and size is the least multiple of the largest member alignment that contains them; in a union every member is at offset 0 and fits.", "quantifier": "all member lists of any length, all member sizes and power-of-two alignments", "why_tests_cant": "unbounded member lists", "anchors": ["src/cc/frontend/type.c: calc_struct_size, type_size, align_size"]}
{"id": "C19", "title": "Bit-fields occupy disjoint bits inside their storage unit", "statement": "For every sequence of bit-field and ordinary members, each bit-field's bits lie within its storage unit, the unit lies inside the struct and is aligned, and no bit of the struct belongs to two members. A bit-field that directly follows another one takes the next bits of the same unit when there is room.", "quantifier": "all member lists mixing bit-fields of any width and type with ordinary members", "why_tests_cant": "packing decisions depend on the whole preceding layout", "anchors": ["src/cc/frontend/type.c: calc_bitfield_size, calc_struct_size"]}
{"id": "C20", "title": "Bit-field stores read back and leave neighbours alone", "statement": "The expression generated for assigning to a bit-field followed by the one generated for reading it yields the stored value reduced to the field's width and signedness, and changes no other bit of the storage unit.", "quantifier": "all storage-unit contents, stored values, positions, widths and signedness", "why_tests_cant": "2^64 unit contents times all field shapes", "anchors": ["src/cc/frontend/fe_misc.c: extract_bitfield_value, assign_bitfield_member, transform_incdec_of_bitfield"]}
{"id": "C21", "title": "Arithmetic operands are converted by C's usual arithmetic conversions", "statement": "For operands of any two integer types, the common type chosen for * / % & | ^ and comparisons has the size and signedness that C's usual arithmetic conversions prescribe.", "quantifier": "all pairs of integer types", "why_tests_cant": "a rule over all type pairs and both operand orders", "anchors": ["src/cc/frontend/fe_misc.c: cast_numbers, promote_to_int"]}
{"id": "C22", "title": "Compile-time folding of + and - agrees with run-time evaluation", "statement": "Folding the sum or difference of two integer constants gives a constant with the type and value that C prescribes for the unfolded expression.", "quantifier": "all pairs of integer types and all constant values", "why_tests_cant": "type-dependent results only differ for particular type pairs and values", "anchors": ["src/cc/frontend/fe_misc.c: new_expr_addsub"]}
{"id": "C23", "title": "Compile-time folding of * / % & | ^ agrees with run-time evaluation", "statement": "Folding two integer constants under * / % & | ^ gives the value and type C prescribes whenever C defines it.", "quantifier": "all pairs of integer types and all constant values", "why_tests_cant": "2^128 operand pairs per type", "anchors": ["src/cc/frontend/fe_misc.c: new_expr_num_bop"]}
{"id": "C24", "title": "Simplifying comparisons of comparisons preserves meaning", "statement": "Rewriting (a op b)==0, !=0, ==1, !=1 and negated && / || as done when building comparison expressions does not change the value for any operand values.", "quantifier": "all operand values including NaN, all operators", "why_tests_cant": "only special operand values (NaN) distinguish", "anchors": ["src/cc/frontend/fe_misc.c: new_expr_cmp, make_not_expr, make_cond"]}
{"id": "C25", "title": "Type compatibility is reflexive and symmetric", "statement": "Comparing a type with itself succeeds and the comparison is symmetric for all types; when the array lengths are known and each struct tag has one declaration it is an equivalence. Every two compatible types (in the sense of the C standard, for prototyped functions) are accepted, and accepted types are compatible when no volatile, no enumeration and no const inside parameter lists is involved.", "quantifier": "all type trees", "why_tests_cant": "unbounded type structure", "anchors": ["src/cc/frontend/type.c: same_type_without_qualifier"]}
{"id": "C26", "title": "Name lookup is lexically scoped", "statement": "Looking a variable up returns the declaration of the innermost enclosing scope that declares it, and adding declarations to other scopes never changes the result.", "quantifier": "all scope chains, all declaration histories", "why_tests_cant": "unbounded nesting and histories", "anchors": ["src/cc/frontend/var.c: scope_find, scope_add, var_find, define_global"]}
{"id": "C27", "title": "Only and all reachable globals are marked used", "statement": "After propagation exactly the globals reachable through references from externally visible definitions (and constructors/destructors) are marked used, for any reference graph including cycles, and the propagation terminates.", "quantifier": "all reference graphs", "why_tests_cant": "arbitrary graphs with cycles", "anchors": ["src/cc/frontend/fe_misc.c: propagate_var_used"]}
{"id": "C28", "title": "Switch dispatch jumps to the matching case", "statement": "The compare/jump-table code generated for a switch transfers control to the case whose constant equals the switched value, and to default (or past the switch) when there is none.", "quantifier": "all case sets of any size, all switched values, all integer widths and signedness", "why_tests_cant": "all case sets and 2^64 values; dense/sparse decisions and signedness interact", "anchors": ["src/cc/backend/codegen.c: gen_switch_cond_recur, gen_switch_cond_table_jump, compare_cases"]}
{"id": "C29", "title": "IR constant folding agrees with the machine", "statement": "Folding or simplifying an IR arithmetic, comparison or cast operation with constant operands gives the value the instruction would compute at that width.", "quantifier": "all operand values, widths and signedness", "why_tests_cant": "2^128 operand pairs", "anchors": ["src/cc/backend/ir.c: new_ir_bop_raw, new_ir_bop, new_ir_unary", "src/cc/backend/optimize.c: calc_const_expr, calc_const_cond"]}
{"id": "C30", "title": "Condition codes invert and swap correctly", "statement": "For every condition and all integer operands, the inverted condition is true exactly when the original is false, and the swapped condition on exchanged operands gives the same result.", "quantifier": "all conditions, all operand values", "why_tests_cant": "quantifies over operand values", "anchors": ["src/cc/backend/ir.c: invert_cond, swap_cond"]}
{"id": "C31", "title": "Phi elimination performs a parallel copy", "statement": "Entering a block through any predecessor, the sequence of moves inserted for its phi nodes leaves each phi destination with the value its source had before any move, for all permutations, cycles, chains and fan-outs.", "quantifier": "all phi sets with distinct destinations, all register contents", "why_tests_cant": "wrong orders only show for particular dependency shapes", "anchors": ["src/cc/backend/ssa.c: replace_phis, extract_cyclic_dependency"]}
{"id": "C32", "title": "Live-variable analysis is sound", "statement": "When analyze_reg_flow stops, a virtual register that may be read later along some path before being overwritten is in the live-out set of every block on that path.", "quantifier": "all control-flow graphs and all paths", "why_tests_cant": "loops make the set of paths infinite", "anchors": ["src/cc/backend/regalloc.c/ir.c: analyze_reg_flow, detect_from_bbs"]}
{"id": "C33", "title": "Register allocation never lets live ranges share a register", "statement": "Linear scan assigns two virtual registers whose live intervals overlap different physical registers of their class, and never assigns one a register marked occupied (call-clobbered or argument register) inside its interval.", "quantifier": "all sets of live intervals and occupancy masks, all register counts", "why_tests_cant": "interval sets are unbounded and spilling depends on the order", "anchors": ["src/cc/backend/regalloc.c: linear_scan_register_allocation, expire_old_intervals, split_at_interval, insert_active"]}
{"id": "C34", "title": "RISC-V li materialises any 64-bit constant", "statement": "The instruction sequence the assembler emits for `li rd, imm`, executed under the RISC-V semantics, leaves exactly imm in rd, for every 64-bit imm, and fits the code buffer.", "quantifier": "all 2^64 immediates", "why_tests_cant": "2^64 immediates with carry-in corner cases", "anchors": ["src/as/arch/riscv64/asm_code.c: li_sub, asm_li"]}
{"id": "C35", "title": "RISC-V instructions are encoded as written", "statement": "Every assembled RISC-V instruction decodes, under the ISA manual's encoding, to the operation, registers and immediate written in the source (or a compressed form equal in effect), or is rejected.", "quantifier": "all register operands and all immediates for each mnemonic", "why_tests_cant": "32^3 register choices times all immediates per mnemonic", "anchors": ["src/as/arch/riscv64/asm_code.c", "src/as/arch/riscv64/riscv64_code.h"]}
{"id": "C36", "title": "Assembler constant expressions are arithmetic", "statement": "A numeric expression written in an assembler directive evaluates to its arithmetic value.", "quantifier": "all expressions over + - * / and parentheses-free precedence, all constants", "why_tests_cant": "infinitely many expressions", "anchors": ["src/as/parse_asm.c: parse_add, parse_mul, parse_expr"]}
{"id": "C37", "title": "Label addresses match the emitted layout", "statement": "After address assignment every label's address equals its section start plus the number of bytes emitted before it in that section (with .align padding as emitted).", "quantifier": "all programs (sequences of labels, code, data, alignment, bss) and section mixes", "why_tests_cant": "alignment padding accumulates over the whole program", "anchors": ["src/as/ir_asm.c: calc_label_address, emit_irs", "src/as/ir_asm.h"]}
{"id": "C38", "title": "Branch relaxation terminates with branches that reach their targets", "statement": "The iterated short/long branch selection reaches a fixpoint for every program, and then every branch displacement equals target minus branch address, in the range of the form chosen.", "quantifier": "all programs of any size with any branch structure", "why_tests_cant": "growth of one branch can force others; the iteration bound is over all programs", "anchors": ["src/as/as.c: main loop", "src/as/arch/riscv64/ir_asm_riscv64.c: resolve_relative_address", "src/as/arch/x64/ir_asm_x64.c", "src/as/arch/aarch64/ir_asm_aarch64.c"]}
{"id": "C39", "title": "Linker section placement is consistent and disjoint", "statement": "Addresses given to input sections respect their alignment, never overlap, follow the section order, and equal the position at which the section's bytes are placed in the output image.", "quantifier": "all lists of input sections, sizes and alignments", "why_tests_cant": "alignment padding accumulates over unbounded section lists", "anchors": ["src/ld/ld.c: ld_calc_address, collect_section_data, output_exe"]}
{"id": "C40", "title": "Linker relocations make the instruction reach the symbol", "statement": "After applying a relocation, the patched field read back under the ABI's formula addresses exactly symbol + addend, or the linker rejects it, and all other bits are unchanged.", "quantifier": "all symbol addresses, addends, place addresses and surrounding instruction bits, for each relocation type", "why_tests_cant": "2^64 addresses; range-check mistakes show only near the limits", "anchors": ["src/ld/ld.c: resolve_rela_elfobj"]}
{"id": "C41", "title": "Symbol resolution picks the strong definition", "statement": "For any set of objects and archives, linking succeeds only if each referenced symbol has exactly one strong definition (or only weak/common ones), all references bind to it, and duplicate strong definitions are errors, independent of the order in which weak definitions are seen.", "quantifier": "all object lists and symbol tables", "why_tests_cant": "order-dependent resolution over arbitrary inputs", "anchors": ["src/ld/ld.c: resolve_symbols_elfobj, ld_symbol_address, calc_rela_sym_address", "src/ld/elfobj.c: load_symtab"]}
{"id": "C42", "title": "qsort sorts", "statement": "For any comparison function that is a total preorder, the library's qsort terminates, touches only the array's elements and leaves a sorted permutation of them.", "quantifier": "all arrays of any length and all total preorders", "why_tests_cant": "n! orders for every n; partition boundary bugs", "anchors": ["libsrc/stdlib/qsort.c: qsort"]}
{"id": "C43", "title": "bsearch finds an element exactly when one compares equal", "statement": "On an array partitioned with respect to the key, bsearch returns an element comparing equal if one exists and NULL otherwise, and never reads outside the array.", "quantifier": "all sorted arrays and keys", "why_tests_cant": "all lengths and positions", "anchors": ["libsrc/stdlib/bsearch.c: bsearch"]}
{"id": "C44", "title": "malloc never hands out overlapping memory", "statement": "For any history of malloc/free/realloc with any sizes and any sbrk behaviour, live blocks are pairwise disjoint, large enough, aligned, and freed memory is reused without corrupting the free list.", "quantifier": "all allocation histories", "why_tests_cant": "histories are unbounded; corruption needs particular interleavings", "anchors": ["libsrc/stdlib/malloc.c: malloc, free, morecore", "libsrc/stdlib/realloc.c: realloc"]}
{"id": "C45", "title": "strtol/strtoll/strtoull parse and saturate", "statement": "On digits of the given base the functions return the mathematical value clamped to the type's range and report the first unparsed character.", "quantifier": "all strings and bases", "why_tests_cant": "all digit strings; overflow boundaries", "anchors": ["libsrc/stdlib/_strtoull_sub.c: _strtoull_sub", "libsrc/stdlib/strtol.c: strtol", "libsrc/stdlib/strtoll.c: strtoll", "libsrc/stdlib/strtoull.c: strtoull", "libsrc/stdlib/strtoul.c: strtoul"]}
{"id": "C46", "title": "memmove copies correctly even when regions overlap", "statement": "After memmove(dst,src,n) the n bytes at dst equal the n bytes that were at src before the call, and no other byte changes, for every overlap.", "quantifier": "all memories, addresses and lengths", "why_tests_cant": "all relative positions of the regions", "anchors": ["libsrc/string/memmove.c: memmove"]}
{"id": "C47", "title": "String functions meet their C specifications", "statement": "strlen, strcmp, strncmp, memcmp, strchr, strrchr, memchr, strspn, strcspn, strstr, strcat, strncat and friends return what the C standard prescribes for every NUL-terminated string and never read past the terminator.", "quantifier": "all strings", "why_tests_cant": "all strings and characters, including non-ASCII", "anchors": ["libsrc/string/*.c"]}
{"id": "C48", "title": "strtok splits a string into its tokens", "statement": "Repeated strtok/strtok_r calls return exactly the maximal delimiter-free substrings in order, then NULL, without reading past the terminator.", "quantifier": "all strings and delimiter sets", "why_tests_cant": "the failure happens only after the last token", "anchors": ["libsrc/string/strtok_r.c: strtok_r"]}
{"id": "C49", "title": "printf returns the number of bytes it wrote", "statement": "For every format and arguments the value returned by vfprintf equals the number of bytes sent to the stream.", "quantifier": "all format strings and argument values", "why_tests_cant": "all format/argument combinations", "anchors": ["libsrc/stdio/vfprintf.c: vfprintf, snprintullong, snprintstr, putpadding"]}
{"id": "C50", "title": "Decimal and hexadecimal output is the number", "statement": "%d, %u and %x without width or precision print the canonical numeral of the argument, so reading it back gives the argument.", "quantifier": "all 64-bit integers", "why_tests_cant": "2^64 values", "anchors": ["libsrc/stdio/vfprintf.c: snprintullong, snprintullong2"]}
{"id": "C51", "title": "snprintf never overruns and always terminates its buffer", "statement": "snprintf(out,n,...) writes only inside out[0..n), leaves the first min(len,n-1) bytes of the full output followed by NUL when n>0, writes nothing when n=0, and returns the full length.", "quantifier": "all outputs and buffer sizes", "why_tests_cant": "all lengths around the boundary", "anchors": ["libsrc/stdio/vsnprintf.c: vsnprintf", "libsrc/stdio/fmemopen.c: _memwrite, _memflush"]}
{"id": "C52", "title": "Buffered output delivers every byte once, in order", "statement": "Whatever sequence of fwrite/fputc/fflush calls is made and however the OS splits or fails the underlying writes, the bytes that reached the file followed by those still buffered are exactly the bytes accepted so far.", "quantifier": "all call sequences and all OS write schedules (short writes, errors)", "why_tests_cant": "depends on the schedule of short writes", "anchors": ["libsrc/stdio/_file.c: _fwrite, _fflush"]}
{"id": "C53", "title": "Buffered input returns the file's bytes in order", "statement": "For any sequence of fread/fgetc/ungetc requests and any sizes of OS read results, the bytes returned are the file's bytes, in order, none lost or duplicated.", "quantifier": "all request sequences and all OS read schedules", "why_tests_cant": "depends on how the OS splits reads", "anchors": ["libsrc/stdio/_file.c: _fread", "libsrc/stdio/fgetc.c: fgetc", "libsrc/stdio/ungetc.c: ungetc"]}
{"id": "C54", "title": "Memory streams accumulate exactly what was written", "statement": "After any sequence of writes to an open_memstream stream, flush/close publishes the concatenation of the writes, NUL-terminated, and the right length.", "quantifier": "all write sequences", "why_tests_cant": "buffer growth boundaries over unbounded sequences", "anchors": ["libsrc/stdio/open_memstream.c: open_memstream, _memflush2", "libsrc/stdio/fmemopen.c: _memwrite, _growmem"]}
{"id": "C55", "title": "Static initialisers are emitted at the layout's offsets", "statement": "The data emitted for a statically initialised object is exactly sizeof(object) bytes and the bytes of each member appear at the member's offset.", "quantifier": "all types (nested structs and arrays) and all initialisers", "why_tests_cant": "unbounded nesting", "anchors": ["src/cc/frontend/cc_misc.c: construct_initial_value"]}
{"id": "C56", "title": "Archive members are loaded once and pulling terminates", "statement": "Linking against an archive loads each member at most once and pulls exactly the members needed to satisfy undefined symbols, transitively.", "quantifier": "all archives and symbol dependency graphs", "why_tests_cant": "transitive pulls over arbitrary graphs", "anchors": ["src/util/archive.c: load_archive_content", "src/ld/ld.c: resolve_symbols_archive"]}
{"id": "C57", "title": "ELF string table offsets name the right strings", "statement": "Every offset returned when adding a string to the string table refers, in the dumped table, to that string followed by NUL; equal strings share an offset.", "quantifier": "all sequences of added strings", "why_tests_cant": "unbounded sequences, hash collisions", "anchors": ["src/as/as_util.c: strtab_add, strtab_dump"]}
{"id": "C58", "title": "strtol family accepts all the input forms C prescribes", "statement": "The number parsers accept base 0 and the 0x prefix, skip leading white space and accept a minus sign as C11 7.22.1.4 says.", "quantifier": "all texts and all bases 0, 2..36", "why_tests_cant": "the input forms combine freely", "anchors": ["libsrc/stdlib/strtol.c", "libsrc/stdlib/strtoul.c", "libsrc/stdlib/strtoull.c", "libsrc/stdlib/_strtoull_sub.c"]}
{"id": "C59", "title": "printf formats fields as C prescribes", "statement": "For every format made of text, %% and d/u/x/X/s/c conversions with flags, width, precision and length modifier, vfprintf sends exactly the text C11 7.21.6.1 prescribes, and reads nothing outside the format.", "quantifier": "all formats and arguments", "why_tests_cant": "flags, width, precision, sign and value combine freely", "anchors": ["libsrc/stdio/vfprintf.c: vfprintf, snprintstr, snprintullong, sprintsign"]}
{"id": "C60", "title": "puts writes its string and a newline", "statement": "puts(s) writes exactly the bytes of s and a newline to stdout and reports success, for every string s.", "quantifier": "all strings and stream states", "why_tests_cant": "all strings, including the empty one, against a buffered stream", "anchors": ["libsrc/stdio/puts.c: puts", "libsrc/stdio/fputs.c: fputs"]}
{"id": "C61", "title": "File positions are those of the next byte", "statement": "ftell returns the position of the byte the next read will return; after fseek the next read returns the byte at the position asked for, relative to the start, the current position or the end.", "quantifier": "all files, read histories and offsets", "why_tests_cant": "depends on how much has been read ahead", "anchors": ["libsrc/stdio/fseek.c: fseek", "libsrc/stdio/ftell.c: ftell", "libsrc/stdio/_file.c: _fseek"]}
{"id": "C62", "title": "fopen modes select the right access", "statement": "A mode string is accepted exactly when it has one of r, w and a and at most one + and one b; the file is then opened with the access, creation, truncation and append behaviour C prescribes, and the stream allows just those operations.", "quantifier": "all mode strings", "why_tests_cant": "unbounded set of strings", "anchors": ["libsrc/stdio/_detect_open_flag.c: _detect_open_flag", "libsrc/stdio/fdopen.c: fdopen"]}
{"id": "C63", "title": "fgets and getline return whole lines", "statement": "fgets returns the next line or its first n-1 bytes; getline returns the whole next line, NUL-terminated, growing the caller's buffer and never storing outside it.", "quantifier": "all files, read histories, buffer sizes", "why_tests_cant": "line length against buffer growth and read-ahead boundaries", "anchors": ["libsrc/stdio/fgets.c: fgets", "libsrc/stdio/getline.c: getline"]}
{"id": "C64", "title": "The end-of-file indicator is right", "statement": "feof is true exactly when a read has run into the end of the file.", "quantifier": "all files, read histories and OS read schedules", "why_tests_cant": "depends on how the OS splits reads", "anchors": ["libsrc/stdio/_file.c: _fread", "libsrc/stdio/feof.c: feof"]}
{"id": "C65", "title": "Every open stream is flushed at exit", "statement": "At normal program exit each stream that is still open is flushed exactly once, and no closed stream is touched.", "quantifier": "all sequences of opens and closes", "why_tests_cant": "unbounded sequences, table growth and removal", "anchors": ["libsrc/stdio/_fileman.c: _add_opened_file, _remove_opened_file, flush_opened_files"]}
{"id": "C66", "title": "Conditions of skipped groups are not evaluated", "statement": "A conditional directive inside a skipped group is processed only to keep track of nesting: its condition is not evaluated and cannot make preprocessing fail.", "quantifier": "all nestings and all conditions", "why_tests_cant": "the condition may be any text, and must be inside a skipped group", "anchors": ["src/cpp/preprocessor.c: handle_if, process_directive"]}
{"id": "C67", "title": "A comment counts as white space around directives", "statement": "Replacing a comment that spans lines by white space does not change which groups are processed.", "quantifier": "all files and comment placements", "why_tests_cant": "comments may start and end anywhere relative to directives", "anchors": ["src/cpp/preprocessor.c: get_processed_next_line, process_directive"]}
{"id": "C68", "title": "#if uses uintmax_t for unsigned operands, does not evaluate unselected operands and diagnoses division by zero", "statement": "An #if expression with unsigned operands is evaluated in uintmax_t; operands that && || ?: do not select cannot affect the result; an evaluated division by zero is rejected.", "quantifier": "all #if expressions", "why_tests_cant": "type of the operands, short circuit and value interact", "anchors": ["src/cpp/pp_parser.c: binary, ternary, parse_precedence"]}
{"id": "C69", "title": "Macro arguments are the comma-separated pieces of the invocation", "statement": "The arguments of a function-like macro invocation are the pieces between commas outside inner parentheses, with white space reduced to single spaces and leading space dropped; for a variadic macro the pieces after the named ones form one argument, commas included; exactly the text up to the matching closing parenthesis is consumed.", "quantifier": "all token sequences, any nesting of parentheses and any number of arguments", "why_tests_cant": "nesting and argument count are unbounded", "anchors": ["src/cpp/pp_parser.c: pp_funargs"]}
{"id": "C70", "title": "Empty macro arguments are accepted", "statement": "An invocation with an empty argument is valid, and white space alone between the parentheses of a macro without parameters is no argument.", "quantifier": "all macro definitions and invocations", "why_tests_cant": "depends on where the parenthesis and the white space come from", "anchors": ["src/cpp/pp_parser.c: pp_funargs", "src/cpp/macro.c: macro_expand"]}
{"id": "C71", "title": "Function-like macro replacement follows the standard", "statement": "The result of an invocation is the replacement list with each parameter replaced by its fully expanded argument, or by the argument as written when next to ##, # turned into the string literal spelling the argument, and ## joining neighbouring tokens.", "quantifier": "all macro bodies with well-placed ## and all arguments, non-empty next to ##", "why_tests_cant": "bodies and arguments of any length and combination", "anchors": ["src/cpp/macro.c: subst, glue, glue1, stringize, macro_expand"]}
{"id": "C72", "title": "A macro argument is expanded on its own", "statement": "An argument is completely macro-expanded as if it formed the rest of the input; the text after the invocation is not touched.", "quantifier": "all macro tables and invocations", "why_tests_cant": "needs an argument that ends in the name of a function-like macro", "anchors": ["src/cpp/macro.c: subst, macro_expand", "src/cpp/pp_parser.c: pp_funargs"]}
{"id": "C73", "title": "## works with empty arguments and with strings made by #", "statement": "An empty operand of ## leaves the other operand unchanged, and a string literal made by # can be an operand of ##.", "quantifier": "all macro bodies and arguments", "why_tests_cant": "only particular combinations of operators and empty arguments show it", "anchors": ["src/cpp/macro.c: subst"]}
{"id": "C74", "title": "__VA_OPT__ is replaced by its contents with parameters substituted", "statement": "When variable arguments are present __VA_OPT__(contents) stands for its contents with macro parameters replaced.", "quantifier": "all variadic macro bodies and invocations", "why_tests_cant": "combination of variadic macros, parameters and nested parentheses", "anchors": ["src/cpp/macro.c: subst"]}
{"id": "C75", "title": "Object-like macros expand as the standard says", "statement": "For object-like macros no two of which lead to each other, each text expands to what the standard's rescanning rule prescribes, a macro name met during its own replacement being left alone, for any sequence of texts expanded one after the other.", "quantifier": "all tables of object-like macros without mutual recursion, all sequences of texts", "why_tests_cant": "the hide sets kept on shared body tokens make the outcome depend on history in general", "anchors": ["src/cpp/macro.c: macro_expand, subst, hsadd, glue1"]}
{"id": "C76", "title": "Identifiers and keywords are recognised", "statement": "A word of letters, digits, underscores and UTF-8 characters is read as one token up to its last character; in the compiler it is a keyword exactly when its text is one of the keywords, and in the preprocessor always an identifier.", "quantifier": "all words and all following texts", "why_tests_cant": "words of any length", "anchors": ["src/cc/frontend/lexer.c: read_ident, get_token, reserved_word, init_reserved_word_table"]}
{"id": "C77", "title": "Integer constants have the value C prescribes", "statement": "A decimal, octal, hexadecimal or binary integer constant below 2^64, with any valid suffix, is read as one token with the value of its digits and the signedness and length of its suffix.", "quantifier": "all digit sequences with value below 2^64, all suffixes, all following texts", "why_tests_cant": "unbounded number of leading zeros, 2^64 values", "anchors": ["src/cc/frontend/lexer.c: read_num"]}
{"id": "C78", "title": "String literals and character constants denote the right bytes", "statement": "A string literal denotes its characters with escapes replaced; adjacent literals separated by blanks, comments or line ends are joined; a zero is added at the end. A character constant has the value of its character.", "quantifier": "all literals of any length and any number of adjacent literals, with simple, octal and one- or two-digit hexadecimal escapes", "why_tests_cant": "unbounded contents and separations", "anchors": ["src/cc/frontend/lexer.c: read_string, read_char, backslash"]}
{"id": "C79", "title": "White space and comments are skipped", "statement": "Before a token, any mixture of white space, both kinds of comments, line ends and preprocessor line markers is skipped, and the token read is the one that follows.", "quantifier": "all texts and line sequences", "why_tests_cant": "comments may span any number of lines", "anchors": ["src/cc/frontend/lexer.c: skip_whitespace_or_comment, skip_block_comment, read_next_line, get_token"]}
{"id": "C80", "title": "Integer constants have the type C prescribes", "statement": "An integer constant has the first type of the list of C11 6.4.4.1 for its base and suffix in which its value fits.", "quantifier": "all values below 2^63 with suffix none, l or ll, below 2^32 with suffix u, and all 64-bit values with suffix ll or ull", "why_tests_cant": "2^64 values, all suffixes", "anchors": ["src/cc/frontend/parser_expr.c: literal"]}
{"id": "C81", "title": "Tokens handed back are read again", "statement": "Tokens the parser asks for, declines or hands back behave like a plain sequence of tokens; two tokens can be handed back at any point.", "quantifier": "all sequences of requests with at most two tokens handed back", "why_tests_cant": "unbounded sequences of requests", "anchors": ["src/cc/frontend/lexer.c: fetch_token, match, unget_token"]}
{"id": "C82", "title": "Malformed numbers are rejected", "statement": "A hexadecimal prefix without digits and a constant too large for every integer type are rejected.", "quantifier": "all texts", "why_tests_cant": "unbounded set of texts", "anchors": ["src/cc/frontend/lexer.c: read_num"]}
{"id": "C83", "title": "Every C escape sequence is read as C says", "statement": "Each escape sequence of C11 6.4.4.4 in string literals, wide strings and wide characters denotes the character C prescribes.", "quantifier": "all escapes in all contexts", "why_tests_cant": "escapes of any number of digits, in wide and narrow literals", "anchors": ["src/cc/frontend/lexer.c: backslash, read_utf8_char, convert_str_to_wstr"]}
{"id": "C84", "title": "A character constant has type int", "statement": "The type of a character constant is int, so that its size is that of int.", "quantifier": "all character constants", "why_tests_cant": "all constants", "anchors": ["src/cc/frontend/parser_expr.c: literal", "src/cc/frontend/lexer.c: read_char"]}
{"id": "C85", "title": "Finding the type of an unsigned constant is well defined", "statement": "The type of each unsigned 64-bit constant is found without undefined operations in the compiler.", "quantifier": "all constants and suffixes", "why_tests_cant": "depends on the width of the type tried", "anchors": ["src/cc/frontend/parser_expr.c: literal"]}
{"id": "C86", "title": "Bit-fields of any integer type work in structs and unions", "statement": "A bit-field may have type _Bool, and in a union a bit-field member gives the union the alignment of its declared type, so that accessing it never touches a misaligned storage unit.", "quantifier": "all structs and unions with bit-fields", "why_tests_cant": "the failing shapes are particular combinations of types that tests would have to hit", "anchors": ["src/cc/frontend/type.c: calc_struct_size, calc_bitfield_size, get_fixnum_type"]}
{"id": "C87", "title": "Increment, decrement and compound assignment of bit-fields", "statement": "x++, ++x, x op= y and x = y on a bit-field store the new value reduced to the field, leave every other field of the unit unchanged, and have as value the old (postfix) or the new field value.", "quantifier": "all storage-unit contents, fields, operands", "why_tests_cant": "2^64 unit contents times all field shapes", "anchors": ["src/cc/frontend/fe_misc.c: transform_incdec_of_bitfield, transform_assign_with_bitfield, assign_to_bitfield"]}
{"id": "C88", "title": "Folding of unary operators and shifts agrees with run-time evaluation", "statement": "Unary + - ~ and << >> applied to integers give an expression of the promoted type with the value C prescribes, whether or not the operands are constants.", "quantifier": "all integer types, all operands, all shift counts C allows", "why_tests_cant": "2^64 constants times all types; undefined behaviour of the compiler itself shows in no test", "anchors": ["src/cc/frontend/parser_expr.c: unary, binary", "src/cc/frontend/fe_misc.c: promote_to_int"]}
{"id": "C89", "title": "The conditional operator converts its operands to their common type", "statement": "c ? a : b on numbers has the type and value C prescribes: the common type of a and b, whichever is chosen.", "quantifier": "all pairs of arithmetic types, all operand values", "why_tests_cant": "all pairs of types and values", "anchors": ["src/cc/frontend/fe_misc.c: choose_ternary_result_type", "src/cc/frontend/parser_expr.c: ternary"]}
{"id": "C90", "title": "Floating constants have the precision of their type", "statement": "Converting a constant to float or double and folding further operations gives the result of doing the same at run time.", "quantifier": "all constants", "why_tests_cant": "only constants that are not exactly representable tell the difference", "anchors": ["src/cc/frontend/fe_misc.c: make_cast, new_expr_cmp"]}
{"id": "C91", "title": "Simplifying floating-point arithmetic preserves IEEE results", "statement": "x * 0.0, x * 1.0 and folded sums have the value and the type of the unsimplified expression, for every x including NaN, infinities and negative zero.", "quantifier": "all floating-point values", "why_tests_cant": "special values are rarely tested, and the set of values is huge", "anchors": ["src/cc/frontend/fe_misc.c: new_expr_num_bop, new_expr_addsub"]}
{"id": "C92", "title": "&& and || evaluate what C says", "statement": "a && b and a || b, with or without constant operands, have C's value, and the right operand's effects happen exactly when C evaluates it.", "quantifier": "all operand expressions of any depth", "why_tests_cant": "unbounded expressions, all values", "anchors": ["src/cc/frontend/fe_misc.c: make_cond", "src/cc/frontend/parser_expr.c: binary"]}
{"id": "C93", "title": "Types are the same exactly when C says they are compatible", "statement": "Two types are treated as the same exactly when the C standard calls them compatible, also for volatile objects, const inside function parameters, different enumerations, functions without prototypes and incomplete structs.", "quantifier": "all pairs of types", "why_tests_cant": "type structure is unbounded", "anchors": ["src/cc/frontend/type.c: same_type_without_qualifier"]}
{"id": "C94", "title": "_Generic selects by the converted type", "statement": "_Generic chooses the association whose type is compatible with the type of the controlling expression after lvalue, array and function conversion, and the default only when there is none.", "quantifier": "all lists of associations, all controlling types", "why_tests_cant": "unbounded type structure and list length", "anchors": ["src/cc/frontend/parser_expr.c: parse_generic", "src/cc/frontend/type.c: same_type_without_qualifier"]}
{"id": "C95", "title": "Implicit pointer conversions keep const", "statement": "No implicit conversion accepted by the compiler gives write access to an object reached through a pointer to const.", "quantifier": "all pairs of pointer types, any depth", "why_tests_cant": "unbounded type structure", "anchors": ["src/cc/frontend/type.c: can_cast"]}
{"id": "C96", "title": "Explicit casts are accepted exactly when C allows them", "statement": "A cast to void or to a scalar type is accepted exactly when the operand is (after array and function conversion) scalar and not a mix of pointer and floating type, or the target is void.", "quantifier": "all target types void or scalar, all operand types except structs", "why_tests_cant": "unbounded type structure", "anchors": ["src/cc/frontend/type.c: can_cast"]}
{"id": "C97", "title": "Tags and typedef names are lexically scoped", "statement": "Looking up a struct, union or enumeration tag gives the innermost enclosing declaration of that tag; a name is a typedef name exactly where its innermost declaration as an ordinary identifier is a typedef.", "quantifier": "all scope trees, all declaration histories", "why_tests_cant": "unbounded nesting and histories", "anchors": ["src/cc/frontend/var.c: find_struct, define_struct, find_typedef, add_typedef, find_enum, define_enum"]}
{"id": "C98", "title": "Inner declarations may reuse outer names", "statement": "A typedef, enumeration tag or enumeration constant declared in a block hides an outer one of the same name, and a struct type keeps the definition visible where the type was named.", "quantifier": "all scope trees, all declaration histories", "why_tests_cant": "unbounded nesting and histories", "anchors": ["src/cc/frontend/parser.c: def_type", "src/cc/frontend/parser_type.c: parse_enum, parse_enum_members", "src/cc/frontend/fe_misc.c: ensure_struct"]}
{"id": "C99", "title": "Conditions on floating-point operands", "statement": "Exchanging the operands of a floating-point comparison gives a comparison with the same result, NaNs and infinities included; a comparison is inverted only when the inverse is its negation.", "quantifier": "all conditions, all floating-point operands", "why_tests_cant": "NaN cases are only visible in rarely executed branches", "anchors": ["src/cc/backend/ir.c: invert_cond, swap_cond", "src/cc/backend/ssa.c: insert_unconditional_bb"]}
{"id": "C100", "title": "Merging of two constant additions", "statement": "Replacing an addition of a constant to the result of another by one addition to the original operand leaves every register with the same value.", "quantifier": "all register contents and constants", "why_tests_cant": "depends on which registers coincide", "anchors": ["src/cc/backend/optimize.c: peephole"]}
{"id": "C101", "title": "A value in a register survives the instructions before its last use", "statement": "In the code of a function after allocation of registers, no instruction stores its result into the physical register of another variable whose value is still needed; no value that is needed after a function call is in a register that the called function may overwrite; no value that is needed after an instruction is in a register the instruction destroys by itself (such as rax and rdx in a division on x86-64).", "quantifier": "for every control flow graph, every table of virtual registers, and every architecture's register numbers", "why_tests_cant": "Which values share a register depends on the whole control flow graph and the order of blocks; tests cover a few functions, and a value that is lost only shows up for particular block orders (a call as the first instruction of a loop body)", "anchors": ["src/cc/backend/regalloc.c:166-485", "src/cc/backend/ir.c:407-541"]}
{"id": "C102", "title": "A local object holds what its initialiser says", "statement": "After the declaration of a local object with an initialiser, every scalar and bit-field of the object that the initialiser mentions holds the given value (reduced to its type), every other byte of the object is zero, and no byte of the frame outside the object has changed.", "quantifier": "for every object type (nested structs, unions, arrays, bit-fields, strings), every initialiser that fits it, and every previous content of the frame", "why_tests_cant": "The generated statements clear and then overwrite parts of the object, so an error shows only for particular previous contents of the stack and particular neighbours of the object; nesting is unbounded", "anchors": ["src/cc/frontend/initializer.c:724-867", "src/cc/backend/codegen.c (gen_clear, gen_clear_local_var)"]}
{"id": "C103", "title": "Every item of an initialiser goes to the right subobject", "statement": "An initialiser written with nested or omitted braces, designators and strings gives each subobject the expression the C standard says: items go to the subobjects in order, depth first, continuing after a designator; an item that does not initialise an aggregate as a whole goes to its first subobject it can initialise; a later item replaces an earlier one; the rest is zero. An array declared without a length gets the length of its initialiser, and every initialiser that fits is accepted.", "quantifier": "for every object type of any nesting, and every initialiser for it", "why_tests_cant": "Types and initialisers nest without bound, and where an item goes depends on all items before it; tests contain a few shapes", "anchors": ["src/cc/frontend/initializer.c: flatten_initializer, find_next_indices, find_desig_indices, store_to_current_position, fix_array_size"]}
{"id": "C104", "title": "No valid initialiser is refused or partly lost", "statement": "Every initialiser the C standard allows compiles and keeps all it gives: unnamed bit-fields take no item, a designated scalar may be in braces, a string may go to the first element of a designated array of arrays, replacing one character leaves the others of the string, and an array compound literal has as many elements as its initialiser fills. An index outside an array is reported, and the compiler always ends.", "quantifier": "for every object type and every initialiser", "why_tests_cant": "The failing shapes are combinations of designators, omitted braces and unnamed members that tests do not contain", "anchors": ["src/cc/frontend/initializer.c: flatten_initializer, find_next_indices, find_desig_indices, store_to_current_position, fix_array_size", "src/cc/frontend/parser_expr.c: parse_compound_literal"]}
{"id": "C105", "title": "Assigning a structure copies exactly its bytes", "statement": "When a structure or union is assigned, passed or returned by value, or a local object is cleared before its initialisation, the generated code writes every byte of the destination (with the byte of the source, or zero) and no byte outside it, and its loop ends; an object may be assigned to itself.", "quantifier": "for every size and alignment of the type, every place in memory and every content", "why_tests_cant": "The element size and the number of rounds depend on size and alignment; a wrong remainder shows only for particular sizes, and a byte too many only for particular neighbours", "anchors": ["src/cc/backend/codegen.c:191-272"]}
{"id": "C106", "title": "Arithmetic values convert by themselves, integers and pointers do not", "statement": "An assignment, initialisation or argument converts between arithmetic types without a diagnostic, gives a diagnostic when an integer that is not the constant 0 becomes a pointer, when a pointer becomes an integer other than _Bool, and when a pointer meets a floating type; a pointer becomes a _Bool without a diagnostic.", "quantifier": "for every scalar destination type and every source type that is not a structure", "why_tests_cant": "Pairs of types are unbounded (pointers, arrays and functions of any type); tests check a few pairs and hardly any that must be rejected", "anchors": ["src/cc/frontend/type.c:444-541", "src/cc/frontend/fe_misc.c:322-346"]}
{"id": "C107", "title": "References lead to their symbols after assembling and linking", "statement": "Once a file is assembled and linked, the bytes of each of its sections are those of its items in order, and every jump, call, address computation and pointer in it that names a symbol leads to the address the linker gave that symbol, plus the offset written in the source; all other bytes are unchanged.", "quantifier": "for every program of any number of sections and items, every place of the sections and every address of the symbols, on each of the three machines", "why_tests_cant": "Assembler, object file and linker each hold a part of the offset arithmetic, which also depends on the sizes that jumps end up with; tests link a few programs at one address", "anchors": ["src/as/arch/x64/ir_asm_x64.c:36-316", "src/as/arch/aarch64/ir_asm_aarch64.c", "src/as/arch/riscv64/ir_asm_riscv64.c", "src/as/emit_elf.c:149-319", "src/ld/ld.c:217-397"]}
{"id": "C108", "title": "The value of a symbol is the offset of its label", "statement": "In the object file that the assembler writes, each label has as its value the number of bytes before it in its section; so once the linker has placed the section, the symbol has the address of the bytes after the label.", "quantifier": "for every program of any number of sections and items, on each of the three machines", "why_tests_cant": "Addresses are computed twice, while the sizes of jumps settle and again when sections are written; the two agree only if alignment and empty sections are treated alike", "anchors": ["src/as/as.c:77-86", "src/as/emit_elf.c:75-147", "src/as/arch/x64/ir_asm_x64.c:36-95"]}
{"id": "C109", "title": "Removing blocks does not change what a function does", "statement": "After the compiler has removed jumps to the next block, empty blocks, blocks that only jump, and blocks that nothing leads to, the function executes the same instructions in the same order and on the same states as before, and ends if and only if it ended before. The pass itself always ends.", "quantifier": "for every function made of any number of blocks with distinct labels, every way its jumps are laid out, every initial state and every length of execution, on any machine", "why_tests_cant": "The pass redirects jumps while it scans, inverts conditions, and repeats; whether a block may go depends on blocks scanned before and after. Tests run some functions", "anchors": ["src/cc/backend/optimize.c:17-121", "src/cc/backend/ir.c:28-50"]}
{"id": "C110", "title": "Labels of jump targets are in the assembly", "statement": "Every label that a jump or jump table in the assembly of a function names is defined in it, once; labels are left out only for blocks that are entered only from the block before.", "quantifier": "for every function made of any number of blocks", "why_tests_cant": "A label is left out depending on the predecessors found by a traversal of what control reaches; a jump in code that is not reached, or a jump left to the next block, needs the label nevertheless", "anchors": ["src/cc/backend/emit_code.c:329-336", "src/cc/backend/emit_code.c:356-381", "src/cc/backend/optimize.c:637-664", "src/cc/backend/ir.c:407-459"]}
{"id": "C111", "title": "Removing unused results does not change what a function does", "statement": "After the compiler has removed the instructions whose results nothing uses, the function makes the same calls, stores and other observable steps as before, in the same order, with the same operands and finding the same memory; accesses to volatile objects and asm statements remain.", "quantifier": "for every function made of any number of blocks and instructions, with phis or without, every initial state and every length of execution, on any machine", "why_tests_cant": "An instruction becomes unused only after others are removed, over several rounds and across blocks; and which instructions have effects beyond their result is a matter of kinds, not of examples", "anchors": ["src/cc/backend/optimize.c:125-216"]}
{"id": "C112", "title": "The code of an expression computes its value and its effects", "statement": "The instructions generated for an integer or pointer expression, wherever they are in a function, leave the value that C gives the expression in the operand they name, the assigned variables and memory as C has them, and make the same calls with the same arguments; an expression used as a condition reaches the place for true or the place for false according to its value.", "quantifier": "for every expression of any depth over arithmetic, comparisons, logical operators, assignments, increments, conversions, the conditional operator, loads, stores and calls, every state and every behaviour of memory and of called functions, whenever C defines the value", "why_tests_cant": "Constants are folded while code is generated, comparisons are swapped, operands stay in the variables they come from, and conditions jump out of the middle; each combination of nesting is another path, and tests take few of them", "anchors": ["src/cc/backend/codegen_expr.c:60-334", "src/cc/backend/codegen_expr.c:347-530", "src/cc/backend/codegen_expr.c:542-752", "src/cc/backend/ir.c:217-298"]}
{"id": "C113", "title": "The code of a function does what its statements say", "statement": "The instructions generated for a function whose statements nest in any way, with if, switch, while, do, for, break, continue, goto, labels and return, end with the result that C gives, the same memory and the same calls; go through every state of the variables that the statements go through; and run for ever when the statements do. Labels are distinct, and jumps only end blocks.", "quantifier": "for every function over integer and pointer variables whose labels are distinct and whose constants assigned inside an expression are not converted between signed and unsigned (see C112), every initial state, every behaviour of memory and of called functions and every length of execution, whenever C defines the behaviour", "why_tests_cant": "Loops, jumps into and out of nested statements and functions that do not end have unbounded executions; tests run some functions for some time", "anchors": ["src/cc/backend/codegen.c:36-61", "src/cc/backend/codegen.c:304-660", "src/cc/backend/codegen.c:902-923"]}
{"id": "C114", "title": "Giving every assignment a register of its own does not change what a function does", "statement": "Before optimizing, the compiler renames the registers of a function so that each is assigned in one place only, and puts phis where paths meet. The function then does the same as before: the same calls, stores and other observable steps in the same order, with the same operands and finding the same memory, whatever its registers held at the start. No parameter is assigned any more, no other register is assigned twice, nothing is read before it is assigned unless it was so before, and the flow of control is unchanged.", "quantifier": "for every function made of any number of blocks and instructions whose first block is no target of a jump, every initial state and every length of execution, on any machine", "why_tests_cant": "Whether the right version is read depends on the paths that lead to a place, of which a function with loops has infinitely many, and on the order in which the blocks are visited", "anchors": ["src/cc/backend/ssa.c:15-195", "src/cc/backend/ssa.c:418-423", "src/cc/backend/ir.c:407-541"]}
{"id": "C115", "title": "Replacing copies and computing constants does not change what a function does", "statement": "When optimizing, the compiler replaces registers that only hold a copy by what they are a copy of, removes phis whose parameters are all the same, computes operations on constants and decides conditions that are constant, until nothing changes. This ends, and the function then does the same as before: the same calls, stores and other observable steps in the same order, with the same operands and finding the same memory. Registers are still assigned in one place each and before they are read.", "quantifier": "for every function made of any number of blocks and instructions, every initial state and every length of execution, on any machine; for the preservation of behaviour, functions in which no path reads a register before it is assigned", "why_tests_cant": "A replacement is valid at a place only if every path to it passes the copy and none assigns the source in between; functions with loops have infinitely many paths, and replacements enable each other over several rounds", "anchors": ["src/cc/backend/optimize.c:220-249", "src/cc/backend/optimize.c:391-487", "src/cc/backend/optimize.c:543-633"]}
{"id": "C116", "title": "Replacing phis by moves does not change what a function does", "statement": "After optimizing, the compiler replaces the phis of a function by moves at the ends of the blocks that lead there, and puts in new blocks where a way into a block has phis to serve and the block it comes from has other ways out. The function then does the same as before: the same calls, stores and other observable steps in the same order, with the same operands and finding the same memory. No phi is left, labels stay distinct, and the first block stays first. Nothing that was done before, such as the removal of a jump on a constant, changes this.", "quantifier": "for every function made of any number of blocks, instructions and phis, every way its jumps are laid out, every initial state and every length of execution, on any machine whose jumps do not depend on where labels are", "why_tests_cant": "Whether a move is executed on the right ways only depends on the layout: on whether control falls into a block, on conditions being inverted, on tables, and on blocks put in earlier", "anchors": ["src/cc/backend/ssa.c:198-288", "src/cc/backend/ssa.c:365-444", "src/cc/backend/optimize.c:637-664"]}
{"id": "C117", "title": "The optimizer as a whole does not change what a function does", "statement": "The compiler empties blocks that are not reached, gives every assignment a register of its own, replaces copies, removes unused results and replaces phis by moves, one after the other, each with what the others left and with what was found out about the function before. All of this ends, no assertion fails, and the function makes the same calls, stores and other observable steps in the same order as before the first step, with the same operands and finding the same memory.", "quantifier": "for every function made of any number of blocks and instructions in which nothing is read before it is assigned, every initial state and every length of execution, on any machine; up to the removal of unused results without restriction, and to the end if no jump was removed because its condition is constant and no block has more than three phis that depend on one another", "why_tests_cant": "Each step relies on what earlier steps leave behind, such as single assignments and lists of predecessors that are not computed again; whether these hold still after other steps is not visible in a test of one step", "anchors": ["src/cc/backend/optimize.c:637-664", "src/cc/backend/ssa.c:426-444"]}
{"id": "C118", "title": "Expressions are grouped as the C grammar says", "statement": "Whatever operators, casts, calls, subscripts, member accesses, conditionals and assignments an expression of the C grammar combines, the compiler takes exactly its tokens, without an error message, and evaluates the tree that the grammar gives it: precedence and associativity of every operator are those of the standard. A token sequence has only one tree. What the compiler takes as a whole without a message is an expression of the grammar or of a short list of extensions, provided that the things assigned to are objects. Parsing always ends.", "quantifier": "for all token sequences, of any length and nesting depth, for all derivations of the C11 6.5 grammar", "why_tests_cant": "Test programs combine a handful of operators. There are infinitely many combinations, and a precedence mistake for one pair of operators in one context shows up only there.", "anchors": ["src/cc/frontend/parser_expr.c:25-49", "src/cc/frontend/parser_expr.c:206-259", "src/cc/frontend/parser_expr.c:341-834"]}
{"id": "C119", "title": "An expression is accepted wherever the grammar allows one", "statement": "A conditional expression of constants may be used as a case label, an enumerator's value, an array length, a bit-field width or an index in an initializer, and sizeof may be applied to a compound literal.", "quantifier": "for all expressions and all places where the C grammar allows them", "why_tests_cant": "A missing form is noticed only by a program that uses it at that very place.", "anchors": ["src/cc/frontend/parser_expr.c:685-735", "src/cc/frontend/parser_expr.c:825-834", "src/cc/frontend/parser.c:94", "src/cc/frontend/parser.c:375", "src/cc/frontend/parser_type.c:27", "src/cc/frontend/parser_type.c:91", "src/cc/frontend/parser_type.c:384"]}
{"id": "C120", "title": "Tokens that are no expression get an error message", "statement": "If the tokens where an expression is expected are none, the compiler reports an error and does not crash.", "quantifier": "for all token sequences", "why_tests_cant": "The space of malformed inputs is unbounded; tests contain a few.", "anchors": ["src/cc/frontend/parser_expr.c:237-259", "src/cc/frontend/parser_expr.c:427-484", "src/cc/frontend/fe_misc.c:495-498"]}
{"id": "C121", "title": "Declaration specifiers mean the same in any order", "statement": "A declaration whose specifiers are one of the sets that the C standard lists, with at most one storage class and with or without inline, declares the type and storage class that the standard gives, in whatever order the specifiers, qualifiers and storage classes are written, and what follows is left for the declarator. A set of specifiers means one type only.", "quantifier": "for all sequences of specifiers of any length and order, for every set of type specifiers in C11 6.7.2p2 and every structure, enumeration or typedef name", "why_tests_cant": "There are thousands of orders, such as long const unsigned static int long; tests contain a few.", "anchors": ["src/cc/frontend/parser_type.c:192-372", "src/cc/frontend/fe_misc.c:109-137"]}
{"id": "C122", "title": "Qualifiers in a declaration hold for the declared object", "statement": "const and volatile among the specifiers of a declaration qualify the declared type, whatever it is and wherever they are written. Writing a qualifier twice is the same as writing it once.", "quantifier": "for all sequences of specifiers", "why_tests_cant": "A qualifier that is lost is noticed only by a program that relies on it, and only for that type.", "anchors": ["src/cc/frontend/parser_type.c:236-247", "src/cc/frontend/parser_type.c:349-371", "src/cc/frontend/type.c:261-264"]}
{"id": "C123", "title": "A declarator declares its name with the type of the C standard", "statement": "Pointers, arrays, functions and parentheses in a declarator give the declared name the type that C11 6.7.6 derives, however they are nested, with parameters of array or function type adjusted to pointers. The declarator ends where it ends by the grammar, without an error message, and the token sequence has one type only. Parsing always ends.", "quantifier": "for all declarators of any length and nesting, except: a declarator in two pairs of parentheses, a list of parameters that no declarator precedes, qualifiers or variable lengths in brackets", "why_tests_cant": "Declarators nest without bound, and types are completed from the inside through shared placeholders; a test sees a few shapes.", "anchors": ["src/cc/frontend/parser_type.c:394-429", "src/cc/frontend/parser_type.c:500-683"]}
{"id": "C124", "title": "Every declarator of the C grammar is accepted with its type", "statement": "Also with redundant parentheses, with unnamed parameters of function type, and with qualifiers or variable lengths in the brackets of parameters, a declarator is accepted and has the type of the standard.", "quantifier": "for all declarators of C11 6.7.6 and 6.7.7", "why_tests_cant": "Each form is rare, and a form that is missing or has the wrong type shows only in programs that use it.", "anchors": ["src/cc/frontend/parser_type.c:433-601", "src/cc/frontend/parser_type.c:645-662", "src/cc/frontend/parser.c:801-818"]}
{"id": "C125", "title": "Type specifiers that do not go together get an error message", "statement": "If the arithmetic type specifiers of a declaration are none of the sets that the standard lists, the compiler reports an error.", "quantifier": "for all sequences of type specifiers, qualifiers and storage classes", "why_tests_cant": "There are unboundedly many wrong sequences.", "anchors": ["src/cc/frontend/fe_misc.c:113-129", "src/cc/frontend/parser_type.c:203-204"]}
{"id": "C126", "title": "Statements are grouped as the C grammar says", "statement": "The body of a function that follows the C grammar is taken, without an error message, exactly up to its closing brace, with the statements that the grammar gives: an else belongs to the nearest if, break and continue leave the innermost statement that they can leave, a case or default belongs to the innermost switch, and a for with a declaration is one statement. A token sequence is at most one body. Parsing always ends.", "quantifier": "for all token sequences, of any length and nesting depth, for all derivations of the C11 6.8 grammar", "why_tests_cant": "Statements nest without bound, and the target of a jump depends on everything around it; tests nest a few levels.", "anchors": ["src/cc/frontend/parser.c:29-73", "src/cc/frontend/parser.c:296-685"]}
{"id": "C127", "title": "What is no statement gets an error message", "statement": "If the tokens of a body are not statements of the C grammar, if break, continue, case or default are used where there is nothing they belong to, if a switch has two equal cases or two defaults, or if a label is defined twice or missing, the compiler reports an error.", "quantifier": "for all token sequences", "why_tests_cant": "There are unboundedly many wrong bodies; tests contain a few.", "anchors": ["src/cc/frontend/parser.c:29-73", "src/cc/frontend/parser.c:296-685"]}
{"id": "C128", "title": "main returns 0 if it gets to its closing brace", "statement": "If control reaches the end of the body of main, whose type is int or which is declared void, main returns 0. In all other cases it returns what it returns without this rule; no return is lost or added elsewhere.", "quantifier": "for all bodies of any size and nesting of loops, switches, gotos and labels, and all executions", "why_tests_cant": "Whether the end is reached depends on all paths through the function; tests have the end either plainly reachable or plainly not.", "anchors": ["src/cc/frontend/fe_misc.c:1804-1845", "src/cc/frontend/fe_misc.c:1890-2029", "src/cc/frontend/ast.c:44-70"]}
{"id": "C129", "title": "A function that may miss its return value gets a warning", "statement": "If some execution of a function with a return value reaches the end of its body, the compiler warns that a return is required; if some execution of a noreturn function reaches the end, the compiler warns as well.", "quantifier": "for all bodies of any size and nesting of loops, switches, gotos and labels, where conditions that are no constants may go either way", "why_tests_cant": "The warning depends on all paths through the function.", "anchors": ["src/cc/frontend/fe_misc.c:1804-1845", "src/cc/frontend/fe_misc.c:1890-2029"]}
{"id": "C130", "title": "Integer arithmetic computes what C says on x64", "statement": "For a run of integer operations (arithmetic, division, shifts, bit operations, negation, conversions between sizes, comparisons, copies) compiled for x64, the executed instructions leave in each register that is still needed the value that C prescribes for the operands, signed or unsigned, of 1, 2, 4 or 8 bytes, and they disturb no other value that is still needed; a returned value is in rax.", "quantifier": "for all lists of operations of any length, all values and constants, and all assignments of registers in which values in use at the same time differ and the registers an operation overwrites are free", "why_tests_cant": "Division, shifts by a register and multiplication go through fixed registers, and constants are encoded in different ways by size; errors show for single values, sizes and assignments of registers only.", "anchors": ["src/cc/arch/x64/ir_x64.c:325-651", "src/cc/arch/x64/ir_x64.c:728-849", "src/cc/arch/x64/ir_x64.c:1073-1179"]}
{"id": "C131", "title": "Conditional jumps on x64 are taken exactly if the condition holds", "statement": "A compiled comparison of integers jumps exactly if the relation holds for the signed or unsigned values; one of floating-point numbers jumps, or gives 1, exactly if the relation holds, where with a NaN only != holds; the index of a jump table is extended without sign.", "quantifier": "for all values, constants that fit an instruction, sizes and relations, and all floating-point operands including infinities and NaN", "why_tests_cant": "The flags of the processor differ for overflow, carry and unordered operands; a wrong condition code shows only for values at the border.", "anchors": ["src/cc/arch/x64/ir_x64.c:198-231", "src/cc/arch/x64/ir_x64.c:789-930"]}
{"id": "C132", "title": "Conversions between integers and floating-point numbers on x64", "statement": "An integer converted to float or double becomes itself or, if it has too many digits, one of its two neighbours; a floating-point number converted to an integer type that has the number before its point becomes that number; other registers keep their values.", "quantifier": "for all integers of 1, 2, 4 and 8 bytes, signed and unsigned, and all floating-point numbers in range", "why_tests_cant": "The rules differ by size and sign, and the failures need values in the upper half of an unsigned type or left-over bits in a register.", "anchors": ["src/cc/arch/x64/ir_x64.c:653-755"]}
{"id": "C133", "title": "Preparing operations for x64 does not change what they do", "statement": "Rewriting operations so that the destination is the first operand, and moving constants that instructions cannot hold into registers, keeps every value, every returned value and every decision of a jump; afterwards each operation has instructions.", "quantifier": "for all lists of operations of any length and all values", "why_tests_cant": "A constant that does not fit or an operand overwritten too early shows only for particular values and orders of operands.", "anchors": ["src/cc/arch/x64/ir_x64.c:1073-1179", "src/cc/backend/ir.c"]}
{"id": "C134", "title": "A function finds its arguments where its caller put them (x64)", "statement": "Each argument of a call goes to the register or the place on the stack that the ABI gives to its position and class (structures on the stack), places on the stack do not overlap, and a hidden pointer for a returned structure counts as a first argument; on entry the called function moves each argument, whole, to the register or stack slot it was assigned, without overwriting an argument that is still to be moved.", "quantifier": "for all lists of parameters of any length, types and sizes, all values, and all assignments of registers and slots in which no two parameters share a place", "why_tests_cant": "Registers run out at different positions for integers and floating-point numbers; a wrong order of moves or a wrong offset shows for particular lists of parameters and assignments only.", "anchors": ["src/cc/backend/codegen_expr.c:378-476", "src/cc/backend/codegen.c:77-189", "src/cc/backend/codegen.c:775-818", "src/cc/arch/x64/emit_x64.c:70-143"]}
{"id": "C135", "title": "va_arg finds the variable arguments in order (x64)", "statement": "In a variadic function, va_start followed by va_arg with the type of each further argument gives the values of the further arguments one after the other.", "quantifier": "for all lists of named parameters and of further arguments (integers, floating-point numbers, structures) of any length and all values", "why_tests_cant": "The arguments come from three areas which are left at different positions; tests cover few combinations.", "anchors": ["src/cc/builtin.c:205-285", "include/stdarg.h", "src/cc/arch/x64/emit_x64.c:129-140", "src/cc/backend/codegen.c:782-788"]}
{"id": "C136", "title": "Objects in a stack frame are aligned and do not overlap (x64)", "statement": "Local objects and spilled values have disjoint places, aligned as their types ask relative to the base pointer, inside the frame, apart from the saved registers, the saved argument registers of a variadic function and the room for calls; blocks from alloca lie below the frame, above the room for calls, and are disjoint, however many there are.", "quantifier": "for all lists of objects of any sizes and alignments, and all sequences of alloca", "why_tests_cant": "Which objects are neighbours depends on the whole function.", "anchors": ["src/cc/backend/codegen.c:775-876", "src/cc/arch/x64/emit_x64.c:223-256", "src/cc/builtin.c:288-318", "src/cc/arch/x64/ir_x64.c:1027-1039"]}
{"id": "C137", "title": "A function gives back the stack pointer and the caller's registers (x64)", "statement": "Whatever the body of a function does to the registers it uses and to its frame, when it returns the stack pointer is as on entry, the return address is untouched, and rbx, rbp and r12 to r15 have the values they had on entry; inside, the stack pointer is a multiple of 16 at each call.", "quantifier": "for all sets of used registers, sizes of the frame and of the room for calls, and all states", "why_tests_cant": "A register that is not restored shows only in a caller that keeps a value there.", "anchors": ["src/cc/arch/x64/emit_x64.c:223-275", "src/cc/arch/x64/ir_x64.c:95-133"]}
{"id": "C138", "title": "Values in registers survive calls (x64)", "statement": "A value that is needed after a call and was there before it is in a register that is found to be in use at the call; such a register has its value again after the call, even if the called function changes every register that the ABI lets it change; there is room for this in the frame, and neither the arguments nor the result are disturbed.", "quantifier": "for all sets of registers in use, all sizes of arguments on the stack, all lists of live ranges of any length and all states", "why_tests_cant": "A value is lost only when enough values are live at a call and the called function uses the same register.", "anchors": ["src/cc/backend/codegen.c:710-773", "src/cc/arch/x64/ir_x64.c:143-187", "src/cc/arch/x64/ir_x64.c:973-1025", "src/cc/arch/x64/emit_x64.c:145-166"]}
{"id": "C139", "title": "A va_list can be handed to code from other compilers (x64)", "statement": "A va_list that was set up by va_start can be passed to a function which walks it as the ABI says (such as vprintf of the system's C library), and that function finds the values of the further arguments.", "quantifier": "for all lists of named parameters and of further arguments of any length and all values", "why_tests_cant": "The layout agrees for most argument lists.", "anchors": ["src/cc/builtin.c:205-285", "include/stdarg.h", "src/cc/arch/x64/emit_x64.c:129-140"]}
{"id": "C140", "title": "Registers and constants in x64 instructions are encoded as written", "statement": "For every instruction the assembler's parser accepts whose operands are registers and constants (moves, arithmetic, logic, shifts, comparisons, extensions, set, push and pop, jumps and calls through registers, floating-point arithmetic and conversions), the bytes emitted decode, by the rules of the Intel manual and whatever bytes follow, to this instruction with these registers, sizes and constants, and to no further or fewer bytes.", "quantifier": "for all instructions, registers (8 to 64 bits, xmm) and constants", "why_tests_cant": "There are some thousands of combinations of instruction, size and registers (REX, the legacy byte registers), and any 64-bit constant; tests have a few of them.", "anchors": ["src/as/arch/x64/asm_code.c:46-132,366-448,534-694,763-799,881-917,999-1058,1104-1428", "src/as/arch/x64/parse_x64.c:491-693"]}
{"id": "C141", "title": "Memory operands in x64 instructions are encoded as written", "statement": "For every instruction the assembler's parser accepts with an operand in memory (base register with offset, base and scaled index with offset, label relative to the instruction pointer, absolute address, fs segment), the bytes emitted decode, by the rules of the Intel manual and whatever bytes follow, to this instruction with this address and offset, register, size and constant.", "quantifier": "for all instructions, base, index and other registers, scales, offsets and constants", "why_tests_cant": "rsp, rbp, r12 and r13 are special as base or index, in combination with offset 0 and with each instruction's own encoder; offsets are arbitrary.", "anchors": ["src/as/arch/x64/asm_code.c:78-88,134-364,452-532,696-761,801-879,919-997,1060-1102,1430-1491", "src/as/arch/x64/parse_x64.c:293-347"]}
{"id": "C142", "title": "The x64 assembler has room for every instruction and does not crash on one", "statement": "The bytes of an instruction never exceed the 14 bytes there are for them, whatever the operands; operands which an instruction cannot have are reported and do not abort the assembler.", "quantifier": "for all instructions, registers, offsets and constants", "why_tests_cant": "The longest encodings need a rare combination of operands.", "anchors": ["src/as/arch/x64/asm_code.c:16-30,820-842,1635-1657", "src/as/asm_code.h:11-21"]}
{"id": "C143", "title": "longjmp goes back to where setjmp returned", "statement": "setjmp gives 0 and changes no memory but its buffer, which is large enough; as long as the buffer is left alone, longjmp with it continues where this call of setjmp returned, whatever the registers and memory are by then, with the stack pointer and every register that the ABI has functions preserve as they were, and with its second argument as result, or 1 instead of 0; apart from the dead place of the return address it changes no memory.", "quantifier": "for all states at setjmp and all states at longjmp, on x64, AArch64 and RISC-V", "why_tests_cant": "A register that is not saved or is loaded from the wrong place shows only in a caller that keeps a value there.", "anchors": ["libsrc/misc/setjmp.c", "libsrc/misc/longjmp.c", "include/setjmp.h:8-16"]}
{"id": "C144", "title": "Functions registered with atexit are called at exit, last first", "statement": "At exit every function whose registration with atexit gave 0 is called once, in reverse order of registration, whether it was registered in a constructor, in main or at exit; so are the functions of __cxa_atexit with their arguments; at least 32 registrations succeed; destructors, and the flushing of streams among them, come after all of these.", "quantifier": "for all programs: constructors, registrations of any number, and functions that register others", "why_tests_cant": "The order of constructors depends on the linker; registrations during exit, and more functions than there is room for, are rare.", "anchors": ["libsrc/stdlib/atexit.c", "libsrc/stdlib/__cxa_atexit.c", "libsrc/stdlib/exit.c:25-35", "libsrc/crt0/_start.c:14-35"]}
{"id": "C145", "title": "getenv gives the value of a variable", "statement": "getenv gives the string after the equals sign of the first entry of the environment whose name is exactly the one given, and NULL if there is none; it reads no byte outside the name and the entries.", "quantifier": "for all environments with any number of entries of any lengths, and all names", "why_tests_cant": "Names that are prefixes of others, and entries without equals sign, come in any order.", "anchors": ["libsrc/stdlib/getenv.c"]}
{"id": "C146", "title": "basename and dirname split a path", "statement": "basename gives the last component of a path and dirname what is before it, as POSIX says, whatever slashes are at the beginning, at the end or in between; dirname changes nothing outside the path.", "quantifier": "for all paths of any length", "why_tests_cant": "Paths with slashes at their ends or several in a row are rarely tried.", "anchors": ["libsrc/misc/basename.c", "libsrc/misc/dirname.c"]}
{"id": "C147", "title": "rand gives the numbers of POSIX's generator and does not repeat early", "statement": "After srand with any seed, rand gives the sequence that POSIX prescribes for lrand48 after srand48, each number between 0 and RAND_MAX; the generator gets back to a state only after 2^48 calls; without srand the sequence is that of srand(1).", "quantifier": "for all seeds, states and numbers of calls", "why_tests_cant": "2^48 calls are too many to try.", "anchors": ["libsrc/stdlib/nrand48.c", "libsrc/stdlib/lrand48.c", "libsrc/stdlib/rand.c", "libsrc/stdlib/srand.c", "include/stdlib.h"]}
