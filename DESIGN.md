# Formal model of tyfkda/xcc: design

The source is read as text from `/repo` (never built or run).  The Rocq
development is in `rocq/theories/`, logical root `Verif`; it uses the standard
library and stdpp.

## Conventions

* One directory per area: `Util`, `Cpp` (preprocessor), `Front` (front end of
  the compiler), `Back` (its back end), `As` (assembler), `Ld` (linker), `Lib`
  (C library), `Wcc` (WebAssembly linker).
* Per topic `X`: `X_model.v` has the functions transcribed from C, each with a
  comment citing file and lines, and a header saying what was simplified;
  `X_spec.v` is a small specification that does not use the model's helpers;
  `X_proof.v` (and `X_..._proof.v`) has the lemmas; `X_props.v` has the theorems
  for the properties, with `Print Assumptions` and an `Example` showing a
  non-trivial instance of each.
* Theorems are named after the property: `Cnn_...`.  `_partial` marks a theorem
  that proves only part of the property (its comment says what is missing),
  `_refuted` one that exhibits inputs on which the code violates it.
  A property with either is `partial` in `MANIFEST.json`.
* C integers are `Z` with wrap-around written out.  Undefined behaviour, failed
  assertions, accesses out of bounds and error exits are outcomes of their own
  (`None`, `Undef`, `Err`...), so a theorem that says a function returns a
  result also says that none of these happens.
* Loops that are not structurally recursive take fuel.  Running out of fuel is
  an outcome of its own too, and a theorem excludes it (for some fuel, for all
  larger amounts).
* Sizes are unbounded (`nat`, lists) unless the C code's own width matters, in
  which case the width is explicit in the model or a hypothesis in the theorem.
* Failure of `malloc` inside the tools is not modelled (they exit).  In the C
  library it is, where the library itself handles it (`Memstream`, `Malloc`).
* Examples with numbers are illustrations.  No theorem is proved by
  enumerating bounded inputs, except where the input is an enumeration in C too
  (condition codes, type kinds); `C31_three_phis_partial` is bounded by its statement.

How theorems were tested: `seeded/LOG.jsonl` records wrong versions of model
definitions (made in a scratch copy) and which theorems rejected them.
A line with an empty `theorems_failed` is an attempt that no theorem rejected; its `note` says
whether the edit survived or did not type-check, and whether another run of it was rejected.
`theorems_failed` is computed: the theorems whose proofs use, directly or not, a lemma that failed.
A theorem is listed when its proof broke, which is weaker than its statement being false.


## Plan per property

`files` is the topic `X` of `theories/X_{model,spec,proof,props}.v`.

| id | files | what is modelled | how it is proved | not covered, or false of the code |
|----|-------|------------------|------------------|----------------------------------|
| C01 | Util/Table | `util/table.c`: entry array, linear probing, tombstones, growth; hash function arbitrary | refinement to a finite map by an invariant over all histories; probing ends because a slot is always free | - |
| C02 | Util/Table | `table_iterate` | invariant of C01; result is a permutation of the map's pairs | - |
| C03 | Util/Table | `alloc_name`, FNV-1a, name table | invariant: every spelling is in the table once | - |
| C04 | Util/Vector | `vec_*` with capacity and storage; access outside the storage is a failure | refinement to lists, induction over operations | - |
| C05 | Util/Data | `data_*` with capacity and storage | refinement to byte lists, induction over operations | - |
| C06 | Util/Data | LEB128 encoders including insertion into a buffer | round trip against an independent decoder, induction on 7-bit groups | - |
| C07 | Wcc/LinkLeb | the linker's LEB128 readers with C `int` shifts | round trip for 0 <= v < 2^31 | values outside 0..2^31-1: -1 is read as 126, and large unsigned values shift an `int` out of range (both refuted) |
| C08 | Util/Data | `data_open_chunk`/`data_close_chunk` | induction over trees of chunks, independent wire format | - |
| C09 | Util/Escape | `escape_string`, `unescape_string` | induction over the byte string | - |
| C10 | Util/Wrap | `wrap_value`, `is_im8` etc. | modular arithmetic; uniqueness of the congruent value | - |
| C11 | Util/Path | `join_paths` | induction over components, directory-walk semantics | - |
| C12 | Util/Line | `getline_cont` | induction over physical lines | a line ending in two backslashes is spliced twice (refuted) |
| C13 | Cpp/Cond | `process_directive`'s condition stack; macro definition and condition evaluation are oracles | simulation against a recursive grammar of groups | - |
| C14 | Cpp/Ppexpr | Pratt parser of `pp_parser.c` on tokens | induction over C's expression grammar, both directions, and termination | - |
| C15 | Cpp/Macro | `macro_expand` work list with hide sets keyed by token identity | well-founded measure | - |
| C16 | Cpp/Macro | same | simulation for tables without mutual recursion | with mutually recursive object-like macros the expansion depends on what was expanded before (refuted); function-like macros not covered |
| C17 | Front/Lexer | `get_op_token` tables, both lexers | longest prefix over all strings of punctuator characters | - |
| C18 | Front/Layout | `calc_struct_size`, `type_size`, `align_size` | induction over nested types and members | - |
| C19 | Front/Layout | `calc_bitfield_size` and its callers | invariant over the member list: containment, alignment, disjointness | - |
| C20 | Front/Bitfield | expressions built for bit-field reads and stores, 64-bit machine semantics | bitwise reasoning with `Z.testbit` | stores to fields of width 64 (undefined shift) and to signed fields as wide as their type inside a wider unit (neighbour overwritten), both refuted |
| C21 | Front/Fold | `cast_numbers`, rank tables | all pairs of types, all operand expressions: type and value of the usual arithmetic conversions | - |
| C22 | Front/Fold | `new_expr_addsub` | evaluation equivalence against a separate expression semantics with evaluation order | two constants of which one is unsigned: wrong type and value, host overflow (refuted) |
| C23 | Front/Fold | `new_expr_num_bop` | as C22 | - |
| C24 | Front/Fold | `new_expr_cmp`, `make_not_expr` rewriting | as C22 | NaN: `!(a < b)` becomes `a >= b` (refuted) |
| C25 | Front/Types | `same_type` over type trees | structural induction; reflexive, symmetric, transitive, equivalent to C compatibility on plain types | - |
| C26 | Front/Scope | scope chain, declarations as a history of events | induction over histories and chains | - |
| C27 | Front/Reach | `propagate_var_used` | work-list invariant: marked = reachable; termination measure | - |
| C28 | Back/Switch | `parse_cases`, sorting, `gen_switch_cond` (table and binary search), machine comparison semantics | induction over the sorted case list; any sort result allowed by `qsort` | 64-bit unsigned values on both sides of 2^63, host overflow in the comparison, and types narrower than int (refuted) |
| C29 | Back/Opt | `new_ir_bop`, `new_ir_unary`, `constant_folding` | against a fixed-width machine semantics | constants left non-canonical by casts, and host overflow for unsigned multiplication (refuted) |
| C30 | Back/Cond | `invert_cond`, `swap_cond` | all codes, sizes and operands | - |
| C31 | Back/Phi | `replace_phis`: move ordering and cycle breaking | parallel-copy semantics; all instances up to three phis by a symbolic argument; any number without cycle, and one cycle of any length | two swaps in one block are miscompiled, and one pattern of four phis dereferences null (refuted) |
| C32 | Back/Flow | `detect_from_bbs`, `analyze_reg_flow` | fixpoint: exact liveness on paths, in both directions; termination | - |
| C33 | Back/Alloc | `check_live_interval`, `linear_scan_register_allocation` | invariant over the sorted interval list | - |
| C34 | As/Rv | `li` expansion of the RISC-V assembler | independent decoder and register semantics | `li sp` outside 12 bits moves the stack pointer, `li x0` (refuted) |
| C35 | As/Rv | RISC-V encoders with compression | independent decoder; operand ranges by bit-field lemmas | six kinds of wrong encodings (refuted) |
| C36 | As/Expr | the assembler's expression parser and evaluator | induction over printed expressions | 10-3 is 13, 10/2 is 12, b+4-a is b-a (refuted) |
| C37 | As/Asm | address assignment of all three assemblers | invariant over sections and items | - |
| C38 | As/Asm | relaxation loop of all three assemblers | monotone measure for termination; fixpoint correctness against decoders | compressed RISC-V jump keeps a stale bit of its first offset (refuted) |
| C39 | Ld/Place | `ld_calc_address`, segment and file layout, loader semantics of program headers | induction over sections | align 0, padding in .bss, large alignments, NOBITS before PROGBITS, other section names, program with only .bss (refuted) |
| C40 | Ld/Rela | relocation arithmetic of three architectures with RISC-V call relaxation | bit-field lemmas, independent decoders; frame | missing range checks and unaligned targets, JAL link register, tail calls, LO12 pairing (refuted) |
| C41 | Ld/Sym | symbol tables of the linker over any set of files | invariants over the file list; order independence | weak undefined symbols, common symbols, section symbols (refuted) |
| C42 | Lib/Qsort | `qsort` | loop invariants, permutation and sortedness | - |
| C43 | Lib/Qsort | `bsearch` | loop invariant | - |
| C44 | Lib/Malloc | K&R allocator on a unit-addressed heap, kernel with a limit | heap invariant over all histories | requests near SIZE_MAX and calloc overflow (refuted) |
| C45 | Lib/Strtol | `_strtoull_sub` and wrappers | saturation lemma over all digit strings | - |
| C46 | Lib/String | `memmove`, `memcpy`, `memset` on byte memories | loop invariants for every overlap | - |
| C47 | Lib/String | `string/*.c` | loop invariants | strchr/memchr for 128..255, strstr of two empty strings, padding of strncpy, result of stpcpy, memccpy, strcasecmp (refuted) |
| C48 | Lib/String | `strtok` | induction over the string | when the last token reaches the terminator the next call reads beyond the string (refuted) |
| C49 | Lib/Printf | `vfprintf` including floating point as given digit strings | induction over the format | negative `*` width (refuted) |
| C50 | Lib/Printf | `snprintullong` and `vfprintf` | induction over digits | - |
| C51 | Lib/Memstream | `vsnprintf`, `sprintf` | composition with C49's model | sizes of 2^32 and more (refuted) |
| C52 | Lib/Stdout | `_file.c` output with an adversarial OS | state machine invariant | short writes, counts, size 0 (refuted) |
| C53 | Lib/Stdin | `_file.c` input with an adversarial OS | stream relation, induction over requests | fread after ungetc, second ungetc, negative char, failing read, size 0 (refuted) |
| C54 | Lib/Memstream | `open_memstream.c` | invariant over writes | nothing written, 1 GiB, failing realloc (refuted) |
| C55 | Front/Static | `construct_initial_value` and the assembler's directives | structural induction on types against an independent object image | two union members, bit-field in union, 64-bit bit-field, empty union (refuted) |
| C56 | Ld/Sym | archive member loading | invariant; termination with truthful indexes | an index naming a member without the symbol makes the linker loop (refuted) |
| C57 | As/Strtab | `strtab_add`, `strtab_dump` | invariant over insertions | - |
| C58 | Lib/Strtol | `strtol` prefixes and wrappers | concrete counterexamples | four deviations (refuted) |
| C59 | Lib/Printf | `vfprintf` on structured formats | induction over pieces against a separate output relation | nine deviations (refuted); `%p`, `*` and floating point not covered |
| C60 | Lib/Stdout | `puts`, `fputs` | as C52 | an empty string (refuted) |
| C61 | Lib/Stdin | `fseek`, `ftell` of input streams | as C53 | SEEK_CUR with read-ahead, ftell after ungetc (refuted) |
| C62 | Lib/Fopen | `fopen` modes | all strings | - |
| C63 | Lib/Stdin | `fgets`, `getline` | as C53 | fgets with size 1 (refuted) |
| C64 | Lib/Stdin | the end-of-file indicator | as C53 | devices with short reads, indicator set early (refuted) |
| C65 | Lib/Fopen | stream list and exit flushing | invariant over opening and closing | - |
| C66 | Cpp/Cond | as C13 | counterexample | conditions in skipped groups are evaluated (refuted) |
| C67 | Cpp/Cond | as C13, with comments | counterexamples | comments around directives (refuted) |
| C68 | Cpp/Ppexpr | as C14 | counterexamples | unsigned operands, unevaluated operands, division by zero (refuted) |
| C69 | Cpp/Macro | argument collection of function-like macros | induction over arguments | - |
| C70 | Cpp/Macro | same | counterexamples | empty arguments are rejected (refuted) |
| C71 | Cpp/Macro | substitution of parameters, `#`, `##` | induction over the replacement list | - |
| C72 | Cpp/Macro | as C71 | counterexample | an argument is expanded with the text after the invocation (refuted) |
| C73 | Cpp/Macro | as C71 | counterexamples | empty operands of `##`, pasting a string (refuted) |
| C74 | Cpp/Macro | `__VA_OPT__` | counterexample | parameters inside are not replaced (refuted) |
| C75 | Cpp/Macro | object-like macros | simulation against an independent rescanning relation | - |
| C76 | Front/Lexer | identifiers and keywords | all strings | - |
| C77 | Front/Lexer | integer constants | induction over digits | - |
| C78 | Front/Lexer | string and character literals | induction over literals, blanks and lines | - |
| C79 | Front/Lexer | blanks and comments | induction | - |
| C80 | Front/Lexer | types of integer constants | all values and suffixes that the code handles | - |
| C81 | Front/Lexer | token push-back | induction over requests | - |
| C82 | Front/Lexer | malformed numbers | counterexamples | accepted silently (refuted) |
| C83 | Front/Lexer | escapes | counterexamples | four deviations (refuted) |
| C84 | Front/Lexer | type of character constants | counterexample | char instead of int (refuted) |
| C85 | Front/Lexer | UL constants | all values | undefined shift in the compiler (refuted) |
| C86 | Front/Layout | as C19 | counterexamples | _Bool bit-fields, union alignment (refuted) |
| C87 | Front/Bitfield | `++`, `--` and compound assignment of bit-fields | as C20 | prefix forms at position >= 31 and value of an assignment (refuted) |
| C88 | Front/Fold | unary operators and shifts | as C22 | -0x8000000000000000UL (refuted) |
| C89 | Front/Fold | conditional operator | as C22 | mixed signedness, float/double, two _Bool (refuted) |
| C90 | Front/Fold | floating constants | counterexample | not rounded to their type (refuted) |
| C91 | Front/Fold | floating folding | counterexamples | x*0.0, type of double+float (refuted) |
| C92 | Front/Fold | `&&`, `||` | as C22 | - |
| C93 | Front/Types | as C25 | counterexamples | volatile, const parameters, enums, old-style functions, incomplete structs (refuted) |
| C94 | Front/Types | `_Generic` | as C25 | qualifiers, functions, volatile (refuted) |
| C95 | Front/Types | `can_cast` for pointers | case analysis over all types | const lost below the first level, const arrays (refuted) |
| C96 | Front/Types | `can_cast` | equivalence with C's constraint over all types | - |
| C97 | Front/Scope | tags and typedef names | as C26 | - |
| C98 | Front/Scope | inner declarations | as C26 | inner typedef ignored, inner enum rejected, incomplete struct rebinding (refuted) |
| C99 | Back/Cond | as C30 for floating point (IEEE values including NaN) | all values | inversion with NaN (refuted) |
| C100 | Back/Peep | `peephole` of two additions | modular arithmetic | first addition overwriting its operand (refuted) |
| C101 | Back/Alloc_live | allocation and liveness together | combination of C32 and C33 | first instruction of a block (refuted) |
| C102 | Front/Local | `assign_initial_value`, `gen_clear`, stores on a byte frame | structural induction on types; frame contents arbitrary | string filling an array without its terminator, narrow negative value in a bit-field (refuted) |
| C103 | Front/Flatten | `flatten_initializer` and all it calls, `fix_array_size`; trees of initialisers, types of any nesting | the search finds the least subobject in preorder (induction on its steps, termination by induction on the type); the tree is related to the list of what was given, later items replacing earlier ones | compound literals inside initialisers; types with unnamed bit-fields of nonzero width, unions whose first member is unnamed |
| C104 | Front/Flatten | as C103, and the length of array compound literals | counterexamples computed in the model | refuted: part of a string replaced, scalar in braces after a designator, string for an array of arrays after a designator, unnamed bit-field, endless search, index out of range, three cases of compound literals |
| C105 | Back/Copy | `get_elem_vtype`, `gen_memcpy`, `gen_clear`: loads and stores of one element, pointers and counter as 64-bit registers | the element size divides the size (cases); invariant of the loop: the first k elements are in place | which code paths call them (assignment, arguments, return values) |
| C106 | Front/Types | `can_cast` with an implicit conversion, `same_type` | case analysis on the two types | pointers to pointers (C95); when the diagnostic is an error and when a warning. Refuted: a pointer assigned to a _Bool |
| C107 | As/Refs | the assembler of C37/C38 to its final bytes and references, `construct_relas`, the linker's `apply_relas` of C40 | per item: the bytes at its offset are the encoded ones with one field replaced by the linker (disjointness of the fields, by induction on the references); then composition of the encodings of C38 with the relocations of C40 | the addresses of symbols are given (C108 and the linker's C39/C41 supply them). Refuted: x64 conditional jumps to other objects, x64 loads that name a symbol, jumps to another section of the same file, `.long` with a symbol, RISC-V `beqz` to another object |
| C108 | As/Refs | `calc_label_address`, `emit_irs`, `fix_section_size`, the value in `construct_symtab` | the addresses of the last pass are the start of the section plus the bytes emitted before; `fix_section_size` finds the same starts when no section is empty | binding, type and section index of a symbol. Refuted: an empty aligned section before another |
| C109 | Back/Blocks | `remove_unnecessary_bb`, `replace_jmp_destination`, over abstract instructions; behaviours as traces of executed instructions and states | each edit (dropping a jump, redirecting, inverting, deleting) preserves traces in both directions; invariant of the scan relating the blocks not yet deleted to the table of labels to keep; the number of blocks bounds the rounds | none for the pass; the effects of instructions are a parameter |
| C110 | Back/Labels | `is_fall_path_only`, `emit_bb_irs` (labels only), over `detect_from_bbs` of C32 and `remove_unnecessary_bb` of C109 | the number of times a block is among the predecessors is the number of times it names the block (invariant of the traversal) | that labels are distinct strings. Refuted: code that is dead only after constants are propagated keeps jumps to labels that are left out; a jump to the next block left by the last round |
| C111 | Back/Unused | `remove_unused_vregs`, over abstract instructions with and without results; registers whose address is taken are part of the memory; phis | simulation on the registers that are read, round by round; the number of registers bounds the rounds; the registers that are kept anyway may be more than those in memory | `vreg_table`. Refuted: observable instructions with a result other than calls (volatile loads, assignments to volatile variables, asm statements) |
| C112 | Back/Gen | `gen_expr`, `gen_cond_jmp`, `gen_compare_expr`, `gen_cast`, `gen_ternary`, `gen_expr_logandor`, `gen_assign_sub`, `gen_expr_incdec`, `gen_deref`, `gen_funcall` with arguments passed by number, `new_ir_bop`, `new_ir_unary`, `new_ir_cjmp`, for integers and pointers of 1 to 8 bytes held in registers; C's value of an expression with its order of evaluation undefined when it matters; memory and called functions are parameters | mutual induction on expressions and arguments for values and conditions at once; operands that stay in variables are stable because C leaves conflicting assignments undefined | floating point, structs and their copies, variable arguments, bit-fields (C20), inlined functions, `_Bool` objects, variables in memory as variables (they are loads and stores), block-valued expressions. Refuted: `(unsigned)(i = -1) == 4294967295u` is compiled to 0 |
| C113 | Back/Gen | `gen_stmt` and the functions for each statement, `gen_switch` as one instruction (its jumps are C28's), `gen_defun` for the body; C's statements as a small-step machine with continuations | forward simulation with a measure for steps that take no instruction; labels of the program are found where their statements are; the result, states and divergence follow by determinism of the code | `asm`, variable-length arrays, scopes (variables are numbered apart); as C112 |
| C114 | Back/Ssa | `assign_new_vregs`, `replace_vreg_set`, `ssa_transform`, `insert_phis`, `make_ssa`, with `detect_from_bbs` and `analyze_reg_flow` of C32; abstract instructions as in C111; registers in memory stay as they are; a missing parameter of a phi and a failed assertion are distinct outcomes | invariant of the traversal: the versions at the start of a block are those at the end of its only predecessor, or its phis; simulation on the registers that are live, which C32 gives exactly; names are new or used for the first time; absence of assignments on a path carries over to versions | the vectors of versions kept for the register allocator. The first block must not be the target of a jump: its phis would be left out (code generation never makes such a jump) |
| C115 | Back/Cprop | `replace_register_in_bb`, `replace_register`, `copy_propagation`, over the blocks of C111 and C114; the folding of one instruction is a parameter that must not change what the instruction does (C29 is about the folding itself); constants are compared by value; a failed assertion and going on for ever are distinct outcomes | static invariant (single assignment, assignment before use on all paths) kept by each replacement; dynamic invariant: at any point of an execution the copy and its source are equal once the copy has been passed, since the source is assigned again only on a path that passes the copy again; the number of uses of registers bounds the rounds | functions in which some path reads a register before it is assigned: for them `C115_ends_refuted` shows that the compiler may not end; whether behaviour is kept when it ends is open |
| C116 | Back/Unphi | `insert_unconditional_bb`, `make_from_bb_unconditional`, `replace_phis` (its order of moves is C31's), `resolve_phis`; blocks known by labels, new ones put in at positions; failed assertions are a distinct outcome | invariant of the loop over edges: the function with some phis resolved, read through a map from old to new edges, does the same (each insertion is a simulation in both layouts, falling and jumping); moves are the parallel assignment of C31 | blocks with four or more phis that depend on one another (C31). Refuted: with predecessors that are out of date after a jump on a constant was removed (`C116_stale_refuted`: `int f(int p) { int x = p, y, c = 0; do { y = x; x = x + 1; } while (c); return y; }` returns p + 1 with -O) |
| C117 | Back/Pipe | `optimize` without the peephole step (C29) and without the last `remove_unnecessary_bb` (C109): the models of C114, C115, C111 and C116 in turn, with the predecessors found once at the start | emptying unreachable blocks does not change the predecessors; single assignment, full phis and assignment before use are carried from step to step; what the phis need (`prepared`) is shown to hold after the first three | functions from which a jump on a constant was removed: refuted (`C116_stale_refuted`); blocks with four or more phis that depend on one another (C31) |
| C118 | Front/Pexpr | `Front/Pexpr_model.v`: the parser by precedences on a list of tokens: the table of rules, prefix and infix rules, argument lists, postfix operators, casts, compound literals, sizeof. A type name, a braced initializer or a statement block is one token; the type checks and the folding of constants, which follow in the same functions, are left out (folding is the subject of C22, C23 and C88). `Front/Pexpr_spec.v`: the grammar of C11 6.5 as an inductive relation between tokens and trees. | Completeness by induction on derivations, with fuel eliminated by monotonicity and the remaining tokens' precedence as side condition; soundness by induction on fuel with the precedence of the left operand in the invariant; termination by a measure; uniqueness as a corollary of completeness. | _Generic, statement expressions' inside, va_arg and the type checks are not modelled; sequences in which sizeof is applied to an unparenthesised compound literal are excluded (see C119). |
| C119 | Front/Pexpr | As C118, with `parse_const_fixnum`. | Completeness at the level of logical-or expressions; witnesses `1 ? 2 : 3` and `sizeof (int){1}`. | Fails for conditional expressions as constants and for sizeof of a compound literal. |
| C120 | Front/Pexpr | As C118; a NULL operand that is used is the outcome `Crash`. | Contrapositive of soundness; witness `1 + ;`. | Fails: after the message for a missing operand the NULL operand is dereferenced. |
| C121 | Front/Decl | `Front/Decl_model.v`: `parse_raw_type` on a list of tokens, with the counters, storage bits and qualifier bits of the source. A structure, enumeration, typedef name, void or typeof is one token; its contents are left out. `Front/Decl_spec.v`: the table of C11 6.7.2p2 as multisets. | Counters of every prefix of a legal set are legal (the check is monotone), so no message comes up; at the end the counters are those of the set, whatever the order. | - |
| C122 | Front/Decl | As C121. | For integer and named types the qualifiers are those written; witnesses `const double` and `const const int`. | Fails: floating types lose their qualifiers; a qualifier given twice stops the compiler. |
| C123 | Front/Decl | `parse_pointer`, `parse_direct_declarator`, its suffix, `parse_declarator`, `parse_funparams` of parser_type.c, with the placeholder types as a heap that is written when the parenthesis is closed. Types of parameters come as one token for the specifiers. | Induction on derivations of the grammar, with a heap invariant: placeholders are filled in once, from inside out; fuel is shown to suffice. | - |
| C124 | Front/Decl | As C123, with `modify_funparam_vla_type`. | Proved for the forms of C123; witnesses for the others. | Fails: `int ((a))[3]` is an int; `int f(char (int))` and `int f(int n, int a[n + 1])` get an error; `a` in `int f(int n, int a[n])` is const; `int f(int n, int a[][n]) {}` fails an assertion; `int f(int a[const])` crashes. |
| C125 | Front/Decl | As C121. | The counters that pass the check are enumerated against the table. | Fails: `signed unsigned`, `char int` and `float double` are accepted. Sets with a named type are left out. |
| C126 | Front/Pstmt | `Front/Pstmt_model.v`: `parse_stmt`, `parse_stmts` and the functions for each statement, the loop scopes, the tables of labels, gotos and cases, on a list of tokens in which an expression is one or two tokens and a declaration one. `Front/Pstmt_spec.v`: the grammar of C11 6.8 with its constraints as an inductive relation in which the enclosing loop and switch are passed down. | Completeness by mutual induction on derivations, with fuel eliminated by monotonicity and a measure; uniqueness as a corollary. | asm statements; the types of conditions and of returned values. |
| C127 | Front/Pstmt | As C126; the outcome `Err` is that a message was given, what follows it is left out. | Soundness by induction on fuel: what is taken is a derivation, if no statement is missing; cases and labels stay without duplicates. | Fails: a loop without body before a closing brace, `while (x) }`, is accepted; `if (x) }` and `switch (x) }` go on to a null pointer. |
| C128 | Front/Funcend | `Front/Funcend_model.v`: `check_reachability_stmt`, `check_reachability_stmts`, `check_func_return` with the REACH_STOP bits of loops and switches as a set that breaks change. `Front/Funcend_spec.v`: a small-step machine with continuations for statements, in which conditions that are not constant and switches choose freely. | The bits follow a rule without state (induction on statements); an invariant on continuations shows that by the rule no execution passes a statement marked as stopping; a simulation in both directions relates the body with and without the return of 0. | Fails when a label or case is within a statement after a jump, or in a branch that a constant condition excludes: `switch (x) { default: return 1; if (0) { case 1: g(); } }` and `while (1) { goto out; { out: break; } }`. These are excluded by `in_sight`. A body that ends with asm is excluded too, as in the source; calls of noreturn functions are taken not to return. |
| C129 | Front/Funcend | As C128. | As C128. | Fails in the same cases. |
| C130 | Back/Isel | `Back/Isel_model.v`: `ei_add` to `ei_rshift`, `ei_neg`, `ei_bitnot`, `ei_cast`, `ei_mov`, `ei_result`, `ei_cond` for integers, `convert_3to2`, `tweak_irs`; the instructions as terms, and a machine with 64-bit registers, flags and a stack that executes them, where a division that traps, a flag that is not known and an empty stack are errors. `Back/Isel_spec.v`: C's integer operations on numbers. | Per operation: the instructions leave the value in the destination and change only the registers listed by `scratch`; then induction on the list with what is live. | That the allocator gives registers as `fits` asks (C33 and C101 are about the allocator); the text of the instructions and their encoding by the assembler. Loads, stores, calls and floating-point arithmetic are not in the list. |
| C131 | Back/Isel | `cmp_vregs`, `ei_cond`, `ei_jmp`, the first part of `ei_tjmp`. | Cases on the flags that a comparison leaves. | The address of the label (C38, C107). |
| C132 | Back/Isel | `ei_cast` with a floating operand; floating-point numbers are m times 2 to the e, infinities and NaN; rounding to nearest even. | Rounding gives a neighbour; half of a large unsigned number doubled is a neighbour as well. | Fails for unsigned 4-byte numbers whose register has bits in the upper half, which a cast from 8 bytes leaves there, and for floating-point numbers in the upper half of unsigned int and unsigned long. |
| C133 | Back/Isel | `convert_3to2`, `tweak_irs`, `insert_tmp_mov` for one block of the operations of C130. | Induction on the list, relating the registers below the first new one; new registers get the size of the constant. | An operation must not have its destination as second operand (code generation takes a new register for each result). |
| C134 | Back/Frame | `Back/Frame_model.v`: the places of arguments in `gen_funcall`, `alloc_variable_registers`, `enumerate_register_params`, `move_params_to_assigned`, the part of `alloc_stack_variables_onto_stack_frame` for parameters, the prologue in `emit_defun_body`; a machine with 64-bit registers, the low halves of vector registers and memory by bytes. `Back/Frame_spec.v`: places by counting the arguments before one, as the ABI does. | Induction on the list of parameters with the registers and stack used so far; a move writes no home of another parameter and no argument register that is still to be read. | Structures of up to 16 bytes are passed in memory by this compiler, in registers by the ABI; `type_ok` says that sizes are those of the code's types and alignments at most 8. How `ei_pusharg` fills the registers is not modelled. |
| C135 | Back/Frame | As C134, with `gen_builtin_va_start` and the macros of include/stdarg.h for `va_arg` (the whole of it as a function on the fields of the va_list). | The fields after any number of `va_arg` are related to the registers and stack words used by the arguments before (induction on the further arguments). | Fails in a function that returns a structure (its hidden pointer is not counted), and when there is a structure among the named parameters (its words on the stack are not counted). |
| C136 | Back/Frame | As C134; local objects by size and alignment, spilled values by size. | Induction on the list of objects: each lies below those before it. | Alignment is relative to the base pointer, a multiple of 8 (larger alignments are not met by the code: the base pointer is 16-aligned only by chance of the saved registers). A block from alloca is aligned to 16 only if the room for calls is. Sizes of 2^31 and more. |
| C137 | Back/Frame | As C134; the body is any change of state that keeps what `keeps` lists. | The words pushed are read back; induction on the list of saved registers. | Functions with asm statements only have no prologue in the source and are left out. |
| C138 | Back/Frame | As C134, with `detect_living_registers` on lists of live ranges, `collect_caller_save_regs`, `detect_funcall_work_size`, `ei_call`'s saving and restoring. | The saved words are read back after any change that `call_keeps` allows; invariant on the table of living registers (induction on the number of instructions). | Registers for arguments and results (rax, rdi, ...) are never in use across a call, which the allocator has to see to (`detect_extra_occupied`, see C101). |
| C139 | Back/Frame | As C135, with the ABI's algorithm for va_arg as a second walk. | As C135, restricted to integers. | Fails for floating-point numbers: their registers are saved 8 bytes apart instead of 16. |
| C140 | As/X64 | All `asm_*` encoders of src/as/arch/x64/asm_code.c without operands in memory, `put_rex0` to `MAKE_IM`, `signed_immediate`, the table, and which operands kParseInstTable lets through (`parsed`). An instruction is a term; the constructor is the opcode with the kinds of its operands; encoders that differ in opcode bytes only are one definition. Specification: a decoder (prefixes, REX, opcode tables, ModRM, SIB, displacement, immediate) written after the Intel manual, independent of the encoder. | The header of an instruction (all but displacement and immediate) depends on finitely many registers and sizes: checked for all of them by evaluation inside the proof. What follows a header does not matter to the decoder (lemma on each part of it), and displacement and immediate bytes are read back for all integers (induction on the number of bytes). | Fails for neg and not of 8-bit registers and for ah, bh, ch, dh with encoders that emit REX (refutations); constants that need more bits than the instruction has are left out (`fine_reg` says exactly what is covered). That opcode table entries and the decoder agree with the hardware rests on reading the manual. |
| C141 | As/X64 | As C140, with the encoders for operands in memory, `MAKE_REX_INDIRECT` and `MAKE_OFFSET`. Labels: the zeros which are patched later (see C38, C40). | As C140. | Fails for subq with an offset, for lea/add/sub/inc/dec with base r12 or r13, for indexed addresses with rbp or r13 and no offset, for indexed mov of less than 64 bits with r8 to r15, for absolute addresses with r8 to r15, for fs with registers other than rax, and for offsets beyond 32 bits (refutations for the main ones; `fine_mem` says exactly what is covered). |
| C142 | As/X64 | As C140 and C141; a failed assert is an outcome of its own. | Each list of bytes is bounded by the length of its parts. | The asserts of add and sub with a scaled index fail for scales 1 and 8 (refutation). Which instructions abort otherwise is not characterised. |
| C143 | Lib/Jmp | `Lib/Jmp_model.v`: the instructions of setjmp and longjmp for three machines, executed on 64-bit registers and memory by bytes (`Back/Frame_model.v`'s loads and stores). Specification: the registers each ABI has functions preserve. | Saved words are read back (induction on a table of registers and rising offsets); loads give each register of the table its word. | The wasm implementation, the control words of the x87 and SSE units. On RISC-V the int argument is sign-extended in its register, as the ABI says. That the compiler emits nothing but the asm statement and a return is read off the source, not proved. |
| C144 | Lib/Exit | `Lib/Exit_model.v`: atexit, __cxa_atexit, the chain, exit and start2; a function is known by the registrations it makes. | Invariant: the arrays hold the first 8 registrations; induction on the calls, which may add to the arrays but not below their index. | Fails: functions registered during exit are not called, the ninth registration fails (C asks for 32), and functions of atexit and __cxa_atexit are not ordered among each other. The system call that ends the process, and exit called again from a function called at exit (undefined in C), are left out. |
| C145 | Lib/Env | `Lib/Env_model.v`: getenv on the memory of `Lib/Cmem.v`, with `strlen` and `strncmp` of `Lib/String_model.v`; the array of pointers is a list. | Induction on the entries, with the theorems of C47 on strlen and strncmp. | How the environment gets to the program (`_start.c`). |
| C146 | Lib/Env | As C145, with `strrchr`; the constant string of dirname is a result of its own. Specification: POSIX's rules as functions on lists. | The last slash splits the path (C47's theorem on strrchr). | Fails for paths that end in a slash, for entries of the root directory and for several slashes before the last component; a NULL path, which POSIX allows, is not modelled (the code dereferences it). |
| C147 | Lib/Rand | `Lib/Rand_model.v`: nrand48, lrand48, rand, srand with three shorts as state and 64-bit arithmetic. | The shorts are the digits of X modulo 2^48; X comes back after n steps iff 2^48 divides 1 + a + ... + a^(n-1), iff it divides n, by induction on the exponent. | Fails for programs that do not call srand. drand48 and erand48 (floating point) are left out. |

## Deviations found

All are stated as `_refuted` theorems with a witness, in the area's `_props.v`.
The most consequential ones for a user:

* Preprocessor: conditions inside skipped groups are evaluated (C66); `#if -1 < 0u`
  is computed with signed numbers (C68); the expansion of mutually recursive macros
  depends on earlier expansions (C16); empty macro arguments are rejected (C70); an
  argument is expanded together with the text after the invocation (C72).
* Front end: `0 - 1u` is the int -1 (C22); `c ? 1u : -1` has type int (C89);
  `!(a < b)` is `a >= b` for NaN (C24); floating constants are not rounded to their
  type (C90); an inner `typedef` that hides an outer one is ignored (C98); a store to
  a bit-field can overwrite its neighbour (C20, C102); `char s[3] = "abc"` as a local
  variable overwrites the byte after it (C102); two designated members of a union are
  both emitted (C55); a pointer assigned to a _Bool gets a diagnostic (C106); an unnamed bit-field takes the next initialiser,
  `(struct P[]){1, 2, 3, 4}` has four elements, `.a = {1}` stops the compiler (C104);
  `case 1 ? 2 : 3:` and `sizeof (int){1}` are refused (C119); `1 + ;` crashes the compiler (C120);
  `const double x` is not const (C122); `int ((a))[3]` declares an int, `void f(int n, int a[][n]) {}` fails an
  assertion (C124); `float double x` is accepted (C125); `{ while (x) }` is accepted (C127);
  `int main(int c, char **v) { switch (c) { default: return 1; if (0) { case 1: puts(""); } } }` does not return 0 (C128).
* Back end: two swaps among the phis of one block are miscompiled (C31); `case` labels
  of unsigned 64-bit values above 2^63 are not found (C28); a call that is the first
  instruction of a loop body loses values assigned further down (C101); an addition
  that overwrites its own operand is merged with the next (C100).
* Assembler: `10-3` is 13 and `10/2` is 12 (C36); `add t0, t0, zero` becomes a call,
  `sw` through x8..x15 at offsets 4 mod 8 writes to the wrong address (C35); `je` to a
  symbol of another object loses its condition, a jump to another section of the same
  file is fixed before the sections are placed, `.long x` overwrites the four bytes
  after it (C107); an empty aligned section shifts the symbols after it (C108).
* Labels: with -O, `int z = 0; if (z) { do { g(); if (h()) goto Y; } while (k()); } a(); Y: b();`
  leaves the loop in the assembly, unreached, while the label of `Y` is left out, so the assembly
  names a label that it does not define (C110); volatile loads and asm statements whose result
  is unused are dropped (C111); `(unsigned)(i = -1) == 4294967295u` is compiled to 0 (C112);
  with -O the compiler never ends on `int a, b; a = b; b = a;` (C115).
* Optimizer: with -O, `int f(int p) { int x = p, y, c = 0; do { y = x; x = x + 1; } while (c); return y; }`
  returns p + 1: the jump on a constant is removed, but its edge is kept in the lists of
  predecessors, and the moves for the edge are executed (C116).
* x64: `double f(unsigned long *p) { return (unsigned int)*p; }` converts all 64 bits, since the
  cast leaves the upper half of the register; `(unsigned int)3e9` is 0x80000000 and
  `(unsigned long)1e19` is 0x8000000000000000 (C132).
* Linker: missing range checks of relocations (C40); common symbols (C41); the size of
  `.bss` lacks the padding between its sections (C39); an archive index naming a member
  without the symbol makes it loop (C56).
* Library: `printf("%5d", -42)` prints `-  42` (C59); `puts("")` prints nothing (C60);
  `strtok` reads beyond the string (C48); `fseek(SEEK_CUR)` ignores the read-ahead (C61);
  short writes duplicate data (C52).

* Variable arguments (x64): in a variadic function that returns a structure, or has a named
  structure parameter, `va_arg` gives wrong values (C135); a `va_list` passed to `vprintf` of
  another C library gives wrong floating-point numbers (C139).

* x64 encodings: `not`/`neg` of a byte register works on 32 bits, `%ah` becomes `%spl` in several
  instructions (C140); `subq $n, off(%reg)` is encoded as `addq`, base registers r12/r13 (rbp with an
  index) give broken code in several instructions, 32-bit and smaller indexed loads with r8-r15 have
  the wrong size, `mov label, %r8` loads rax (C141); `add (%rax,%rcx,8), %rax` fails an assert (C142).

Noticed while reading, not stated as theorems: a `.globl` name that is not defined is
written as defined at the start of its section (emit_elf.c:128-138); the RISC-V back end clobbers `s1`
without saving it and its table of callee-saved floating registers omits `fs8`;
`b++` on a `_Bool` that is 1 leaves 2 (fe_misc.c:1179); `VRF_NO_SPILL` is never checked by the allocator;  `ssa.c:227` inverts floating conditions (the
rule itself is refuted in C99).

## What is not modelled

* Code generation from syntax trees to IR (`codegen_expr.c`, `codegen.c`) for floating
  point, structs and inlined functions; instruction selection other than that of C130 to C133 and
  C134 to C139; spill code and its insertion loop; inlining.
* The parser, apart from the parts named above: the insides of struct, enum and typeof specifiers,
  attributes, asm statements, and what the parser does after its first error message.
* AArch64 instruction encodings other than the jumps of C38 and the
  relocated fields of C40.
* The WebAssembly compiler `wcc` apart from LEB128 and the linker's readers.
* Floating-point parsing and printing (`strtod`, `%f` digits), `libsrc/math`.
* Drivers, file system access, processes, signals; reading and writing of object files
  at the level of bytes, apart from string tables.
* Concurrency: none of the modelled code uses threads.

## Trusted base

* Coq 8.16.1: the kernel (with `vm_compute`, used in examples, witnesses and some
  finite case analyses), `coqc`, and the standard library; stdpp for definitions of
  maps, lists and sets.
* No axioms.  `Print Assumptions` reports *Closed under the global context* for
  every theorem.  (A context listing for the whole development also shows the
  parameters of `ssreflect`'s module type `Under_rel`, which stdpp imports from the standard
  distribution; no theorem depends on them.)
* That the models say what the C code does.  They were transcribed by hand, function
  by function; each definition cites its lines, and each model file states its
  simplifications at the top.  The machine semantics (RISC-V decoder, registers, byte
  memory, ELF loading) are part of the specifications and are trusted as well.
* Types of the host compiler: `int` 32 bits, `long` and pointers 64 bits, two's
  complement, arithmetic right shift of negative numbers.


### Theorems and their assumptions

`Print Assumptions` says *Closed under the global context* for every theorem below.

* C01 (proved): `C01_table_refines_map`
* C02 (proved): `C02_table_iteration_exact`
* C03 (proved): `C03_intern_identity`
* C04 (proved): `C04_vector_refines_list`
* C05 (proved): `C05_data_refines_bytes`
* C06 (proved): `C06_uleb128_roundtrip`, `C06_leb128_roundtrip`, `C06_varuint32_roundtrip`
* C07 (partial): `C07_uleb_reader_partial`, `C07_varuint32_reader_partial`, `C07_leb_reader_partial`, `C07_leb_reader_refuted`, `C07_uleb_reader_refuted`
* C08 (proved): `C08_chunks_well_formed`
* C09 (proved): `C09_escape_roundtrip`
* C10 (proved): `C10_wrap_is_conversion`, `C10_wrap_u64`, `C10_wrap_idempotent`, `C10_is_imm_range`
* C11 (proved): `C11_join_paths_walk`
* C12 (partial): `C12_line_counter`, `C12_logical_lines_partial`, `C12_double_splice_refuted`
* C13 (proved): `C13_accepted_files_select_right_groups`, `C13_nested_files_are_accepted`, `C13_misnested_files_are_rejected`, `C13_loop_ends`
* C14 (proved): `C14_value_of_expression`, `C14_accepted_is_grammatical`, `C14_terminates`
* C15 (proved): `C15_expansion_terminates`
* C16 (partial): `C16_no_history_partial`, `C16_history_refuted`
* C17 (proved): `C17_longest_punctuator`
* C18 (proved): `C18_sizes`, `C18_struct`, `C18_union`
* C19 (proved): `C19_bit_fields`, `C19_packed`
* C20 (partial): `C20_read`, `C20_store_partial`, `C20_neighbour_refuted`, `C20_width_64_refuted`
* C21 (proved): `C21_operands`, `C21_comparison`
* C22 (partial): `C22_addsub_partial`, `C22_unsigned_refuted`, `C22_rank_refuted`, `C22_overflow_refuted`
* C23 (proved): `C23_num_bop`
* C24 (partial): `C24_comparison_partial`, `C24_not_partial`, `C24_nan_refuted`
* C25 (proved): `C25_reflexive`, `C25_symmetric`, `C25_transitive`, `C25_compatible_types_accepted`, `C25_accepted_types_compatible`
* C26 (proved): `C26_terminates`, `C26_innermost`, `C26_undeclared`, `C26_stable`
* C27 (proved): `C27_used`
* C28 (partial): `C28_dispatch_partial`, `C28_constant_partial`, `C28_accepted_partial`, `C28_defined_partial`, `C28_unsigned_refuted`, `C28_overflow_refuted`, `C28_narrow_refuted`, `C28_duplicate_refuted`, `C28_accepted_refuted`
* C29 (partial): `C29_build_partial`, `C29_build_unary`, `C29_fold_partial`, `C29_fold_defined`, `C29_build_defined_partial`, `C29_build_defined_refuted`, `C29_same_size_refuted`, `C29_narrowing_refuted`
* C30 (proved): `C30_invert`, `C30_swap`
* C31 (partial): `C31_three_phis_partial`, `C31_no_cycle_partial`, `C31_in_order_partial`, `C31_late_partial`, `C31_rotation_partial`, `C31_frame`, `C31_two_swaps_refuted`, `C31_crash_refuted`
* C32 (proved): `C32_predecessors`, `C32_liveness`
* C33 (proved): `C33_disjoint`, `C33_interval`, `C33_occupied`, `C33_arguments`, `C33_used`, `C33_total`
* C34 (partial): `C34_li_partial`, `C34_li_sp_refuted`
* C35 (partial): `C35_encoding_partial`, `C35_rejects_partial`, `C35_add_zero_refuted`, `C35_sw_refuted`, `C35_offset_refuted`, `C35_srliw_refuted`, `C35_zero_refuted`
* C36 (partial): `C36_accepts`, `C36_ends`, `C36_value_partial`, `C36_sub_refuted`, `C36_div_refuted`, `C36_label_refuted`
* C37 (proved): `C37_x64`, `C37_aarch64`, `C37_riscv64`
* C38 (partial): `C38_x64_ends`, `C38_aarch64_ends`, `C38_riscv64_ends`, `C38_x64`, `C38_aarch64`, `C38_riscv64_partial`, `C38_jump_refuted`
* C39 (partial): `C39_placed_once`, `C39_no_overlap`, `C39_aligned`, `C39_loaded`, `C39_bss_partial`, `C39_segments`, `C39_tables`, `C39_align_zero_refuted`, `C39_bss_size_refuted`, `C39_text_align_refuted`, `C39_data_align_refuted`, `C39_nobits_first_refuted`, `C39_other_names_refuted`, `C39_congruent_refuted`
* C40 (partial): `C40_relocated_partial`, `C40_frame`, `C40_adrp_add`, `C40_pc32_range_refuted`, `C40_adrp_range_refuted`, `C40_bl_range_refuted`, `C40_bl_unaligned_refuted`, `C40_branch_range_refuted`, `C40_jal_odd_refuted`, `C40_hi20_range_refuted`, `C40_jal_rd_refuted`, `C40_tail_call_refuted`, `C40_lo12_pair_refuted`
* C41 (partial): `C41_errors`, `C41_unresolved`, `C41_binding`, `C41_relocation`, `C41_order_independent`, `C41_weak_undefined_refuted`, `C41_common_size_refuted`, `C41_common_address_refuted`, `C41_section_symbol_refuted`
* C42 (proved): `C42_qsort_sorts`
* C43 (proved): `C43_bsearch_finds`
* C44 (partial): `C44_history_partial`, `C44_contents_kept_partial`, `C44_realloc_partial`, `C44_null_only_when_exhausted_partial`, `C44_memory_is_reused_partial`, `C44_huge_request_refuted`, `C44_negative_sbrk_refuted`, `C44_calloc_overflow_refuted`
* C45 (proved): `C45_strtol_value`, `C45_strtol_no_digits`, `C45_strtoull_value`, `C45_strtoul_value`, `C45_atoi_value`
* C46 (proved): `C46_memmove_any_overlap`, `C46_memcpy_disjoint`, `C46_memset`
* C47 (partial): `C47_strlen`, `C47_strnlen`, `C47_strcmp`, `C47_strncmp`, `C47_memcmp`, `C47_strncasecmp`, `C47_strspn`, `C47_strcspn`, `C47_strpbrk`, `C47_strcpy`, `C47_strcat`, `C47_strncat`, `C47_strchr_partial`, `C47_strrchr_partial`, `C47_memchr_partial`, `C47_strstr_partial`, `C47_strncpy_partial`, `C47_strchr_refuted`, `C47_memchr_refuted`, `C47_strstr_refuted`, `C47_strncpy_refuted`, `C47_stpcpy_refuted`, `C47_memccpy_refuted`, `C47_strcasecmp_refuted`
* C48 (partial): `C48_strtok_splits_partial`, `C48_strtok_refuted`
* C49 (partial): `C49_returns_count_partial`, `C49_negative_width_refuted`
* C50 (proved): `C50_signed_decimal`, `C50_unsigned_decimal`, `C50_hexadecimal`
* C51 (partial): `C51_snprintf_partial`, `C51_snprintf_zero`, `C51_sprintf`, `C51_size_truncated_refuted`
* C52 (partial): `C52_never_overruns`, `C52_delivers`, `C52_flush_delivers`, `C52_line_buffered`, `C52_failures_partial`, `C52_short_write_refuted`, `C52_count_refuted`, `C52_size_zero_refuted`
* C53 (partial): `C53_stream_partial`, `C53_stream_full_partial`, `C53_ungetc_order_refuted`, `C53_ungetc_lost_refuted`, `C53_ungetc_char_refuted`, `C53_read_error_refuted`, `C53_duplicate_refuted`, `C53_size_zero_refuted`
* C54 (partial): `C54_memstream_partial`, `C54_flush_publishes_partial`, `C54_empty_stream_refuted`, `C54_one_gigabyte_refuted`, `C54_out_of_memory_refuted`
* C55 (partial): `C55_image`, `C55_two_members_refuted`, `C55_union_bit_field_refuted`, `C55_wide_bit_field_refuted`, `C55_empty_union_refuted`
* C56 (partial): `C56_gathers`, `C56_stale_index_refuted`
* C57 (proved): `C57_table`, `C57_strings`
* C58 (partial): `C58_hex_prefix_refuted`, `C58_base_zero_refuted`, `C58_strtoul_space_refuted`, `C58_strtoull_minus_refuted`
* C59 (partial): `C59_output_as_prescribed_partial`, `C59_output_unique`, `C59_space_before_sign_refuted`, `C59_number_precision_refuted`, `C59_number_truncated_refuted`, `C59_left_hex_refuted`, `C59_left_zero_refuted`, `C59_plus_unsigned_refuted`, `C59_empty_precision_refuted`, `C59_char_width_refuted`, `C59_lone_percent_refuted`
* C60 (partial): `C60_puts_partial`, `C60_puts_empty_refuted`
* C61 (partial): `C61_ftell_partial`, `C61_fseek_partial`, `C61_seek_cur_refuted`, `C61_tell_unget_refuted`
* C62 (proved): `C62_mode`, `C62_stream`
* C63 (partial): `C63_fgets_partial`, `C63_getline`, `C63_fgets_one_refuted`
* C64 (partial): `C64_eof_reported`, `C64_eof_partial`, `C64_terminal_refuted`, `C64_early_refuted`
* C65 (proved): `C65_exit`
* C66 (partial): `C66_skipped_condition_refuted`
* C67 (partial): `C67_comment_in_skipped_directive_refuted`, `C67_directive_after_comment_refuted`
* C68 (partial): `C68_unsigned_refuted`, `C68_unevaluated_operand_refuted`, `C68_division_by_zero_refuted`
* C69 (proved): `C69_arguments`, `C69_no_arguments`, `C69_variable_arguments`
* C70 (partial): `C70_empty_argument_refuted`, `C70_space_argument_refuted`
* C71 (proved): `C71_replacement`, `C71_invocation`
* C72 (partial): `C72_argument_alone_refuted`
* C73 (partial): `C73_empty_operand_refuted`, `C73_cat_string_refuted`
* C74 (partial): `C74_va_opt_refuted`
* C75 (proved): `C75_object_like_macros`, `C75_texts_end`
* C76 (proved): `C76_identifier`, `C76_preprocessor_identifier`
* C77 (proved): `C77_integer_constant`
* C78 (proved): `C78_string_literals`, `C78_character_constant`
* C79 (proved): `C79_blanks`
* C80 (proved): `C80_constant_type`
* C81 (proved): `C81_handed_back`
* C82 (partial): `C82_malformed_numbers_refuted`
* C83 (partial): `C83_escapes_refuted`
* C84 (partial): `C84_character_type_refuted`
* C85 (partial): `C85_unsigned_long_refuted`
* C86 (partial): `C86_bool_refuted`, `C86_union_refuted`
* C87 (partial): `C87_postfix`, `C87_prefix_partial`, `C87_compound_partial`, `C87_assign_refuted`, `C87_prefix_refuted`
* C88 (partial): `C88_neg_partial`, `C88_pos`, `C88_not`, `C88_shift`, `C88_neg_refuted`
* C89 (partial): `C89_conditional_partial`, `C89_unsigned_refuted`, `C89_floating_refuted`, `C89_bool_refuted`
* C90 (partial): `C90_rounding_refuted`
* C91 (partial): `C91_times_zero_refuted`, `C91_sum_type_refuted`
* C92 (proved): `C92_logical`
* C93 (partial): `C93_volatile_refuted`, `C93_parameter_const_refuted`, `C93_enum_refuted`, `C93_no_prototype_refuted`, `C93_incomplete_struct_refuted`
* C94 (partial): `C94_generic_partial`, `C94_qualifier_refuted`, `C94_function_refuted`, `C94_volatile_refuted`
* C95 (partial): `C95_pointer`, `C95_array`, `C95_nested_refuted`, `C95_array_refuted`
* C96 (proved): `C96_explicit_casts`
* C97 (proved): `C97_struct_tags`, `C97_enum_tags`, `C97_typedef_names`
* C98 (partial): `C98_typedef_partial`, `C98_typedef_refuted`, `C98_enum_tag_refuted`, `C98_enum_constant_refuted`, `C98_incomplete_struct_refuted`
* C99 (partial): `C99_swap_float`, `C99_invert_float_partial`, `C99_invert_float_refuted`
* C100 (partial): `C100_merge_partial`, `C100_merge_refuted`
* C101 (partial): `C101_result_partial`, `C101_call_partial`, `C101_flow`, `C101_call_refuted`, `C101_result_refuted`
* C102 (partial): `C102_declare`, `C102_tight_literal_refuted`, `C102_narrow_value_refuted`
* C103 (proved): `C103_given`, `C103_accepted`, `C103_unique`, `C103_standard`, `C103_ends`, `C103_array_length`, `C103_literal_length`, `C103_string`
* C104 (partial): `C104_string_part_refuted`, `C104_braced_scalar_refuted`, `C104_string_inside_refuted`, `C104_unnamed_refuted`, `C104_endless_refuted`, `C104_out_of_range_refuted`, `C104_literal_length_refuted`, `C104_literal_rejected_refuted`, `C104_literal_string_refuted`
* C105 (proved): `C105_copy`, `C105_clear`
* C106 (partial): `C106_implicit`, `C106_bool_refuted`
* C107 (partial): `C107_x64_partial`, `C107_aarch64_partial`, `C107_riscv64_partial`, `C107_jcc_refuted`, `C107_mov_refuted`, `C107_far_refuted`, `C107_long_refuted`, `C107_branch_refuted`
* C108 (partial): `C108_x64_partial`, `C108_aarch64_partial`, `C108_riscv64_partial`, `C108_own_labels`, `C108_empty_refuted`
* C109 (proved): `C109_same`
* C110 (partial): `C110_emitted_partial`, `C110_reached`, `C110_dead_refuted`, `C110_stale_refuted`
* C111 (partial): `C111_same_partial`, `C111_observable_refuted`
* C112 (partial): `C112_value`, `C112_condition`, `C112_cast_refuted`
* C113 (proved): `C113_result`, `C113_only_result`, `C113_progress`, `C113_divergence`, `C113_labels`, `C113_blocks`
* C114 (proved): `C114_total`, `C114_same`, `C114_once`, `C114_initialised`, `C114_flow`, `C114_phis`
* C115 (partial): `C115_total`, `C115_same`, `C115_form`, `C115_after_ssa`, `C115_ends_refuted`
* C116 (partial): `C116_total`, `C116_same`, `C116_gone`, `C116_easy_partial`, `C116_stale_refuted`
* C117 (partial): `C117_reduced`, `C117_same_partial`
* C118 (proved): `C118_grouped`, `C118_argument`, `C118_one_tree`, `C118_accepted`, `C118_ends`
* C119 (partial): `C119_constant_partial`, `C119_constant_refuted`, `C119_sizeof_refuted`
* C120 (partial): `C120_message_partial`, `C120_message_refuted`
* C121 (proved): `C121_any_order`, `C121_one_type`
* C122 (partial): `C122_qualified_partial`, `C122_floating_refuted`, `C122_twice_refuted`
* C123 (proved): `C123_declared`, `C123_one_type`, `C123_graph`, `C123_ends`
* C124 (partial): `C124_accepted_partial`, `C124_parentheses_refuted`, `C124_function_parameter_refuted`, `C124_length_refuted`, `C124_variable_length_refuted`, `C124_open_rows_refuted`, `C124_qualifier_refuted`
* C125 (partial): `C125_message_partial`, `C125_signs_refuted`, `C125_char_int_refuted`, `C125_float_double_refuted`
* C126 (proved): `C126_grouped`, `C126_one_body`, `C126_ends`
* C127 (partial): `C127_accepted_partial`, `C127_missing_refuted`
* C128 (partial): `C128_zero_partial`, `C128_case_refuted`, `C128_label_refuted`
* C129 (partial): `C129_value_partial`, `C129_noreturn_partial`, `C129_case_refuted`
* C130 (proved): `C130_block`, `C130_result`
* C131 (proved): `C131_jump`, `C131_float_jump`, `C131_float_value`, `C131_index`
* C132 (partial): `C132_to_float_partial`, `C132_to_float_refuted`, `C132_to_int_partial`, `C132_to_unsigned_refuted`, `C132_to_unsigned_long_refuted`
* C133 (proved): `C133_same`, `C133_form`, `C133_instructions`
* C134 (proved): `C134_caller`, `C134_apart`, `C134_callee`, `C134_hidden`, `C134_arrive`
* C135 (partial): `C135_walk`, `C135_struct_return_refuted`, `C135_struct_param_refuted`
* C136 (proved): `C136_inside`, `C136_apart`, `C136_room`, `C136_alloca`
* C137 (proved): `C137_restore`, `C137_aligned`
* C138 (proved): `C138_survive`, `C138_room`, `C138_living`
* C139 (partial): `C139_integers`, `C139_floats_refuted`
* C140 (partial): `C140_encoded_partial`, `C140_not_byte_refuted`, `C140_high_byte_refuted`, `C140_extend_high_byte_refuted`
* C141 (partial): `C141_encoded_partial`, `C141_subq_refuted`, `C141_r12_refuted`, `C141_index_size_refuted`, `C141_rbp_refuted`, `C141_direct_refuted`, `C141_segment_refuted`, `C141_offset_refuted`
* C142 (partial): `C142_room`, `C142_abort_refuted`
* C143 (proved): `C143_setjmp_x64`, `C143_setjmp_aarch64`, `C143_setjmp_riscv`, `C143_longjmp_x64`, `C143_longjmp_aarch64`, `C143_longjmp_riscv`
* C144 (partial): `C144_order_partial`, `C144_cxa_order_partial`, `C144_results`, `C144_fini`, `C144_nested_refuted`, `C144_32_refuted`, `C144_mixed_refuted`
* C145 (proved): `C145_getenv`
* C146 (partial): `C146_basename_partial`, `C146_dirname_partial`, `C146_basename_refuted`, `C146_dirname_refuted`, `C146_dirname_end_refuted`
* C147 (partial): `C147_sequence`, `C147_range`, `C147_period`, `C147_srand`, `C147_start_refuted`

539 theorems.
