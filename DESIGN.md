# Formal model of c-coderdbc

c-coderdbc reads a DBC file (a CAN data base) and writes C sources: per message a
struct, a `Pack` and an `Unpack` function, conversion macros, monitor hooks, and a
`Receive` dispatcher.  A user relies on two programs: the generator and the code it
generates.  The model covers both.

## Shape of the model

* The generator is modelled as total Gallina functions from text to text, function by
  function, down to the `snprintf` formats.  Golden checks compare the text produced by
  the model with the files in `/repo/test/gencode`.
* The generated code is given a meaning by a small C front end written in Gallina:
  lexer, parser and evaluator for the C subset the generator emits (`CSyntax.v`,
  `CSem.v`).  It implements integer promotions, the usual arithmetic conversions,
  wrap-around, and makes undefined behaviour (bad shift counts, signed overflow, division
  by zero, out-of-range conversion) a distinct outcome.
* Theorems about `Pack`/`Unpack`/`Receive` are stated on the *emitted text*: the text
  parses, and evaluating it gives the value an independent specification prescribes.
* The specification files (`*Spec.v`) do not use the model's helpers.

Undefined behaviour of the generator itself (vector accesses out of bounds, out-of-range
double to integer casts, shifts) is the outcome `UB`; thrown exceptions are `Throw`.

## Plan per property

| id | what is modelled | how it is proved |
|----|------------------|------------------|
| C01 | text of the unpack expression + C evaluation of it | induction over the byte chunks: the expression is a disjoint OR of shifted masked bytes; equals the bit sum of the layout spec. The unconditional claim is false (32-bit shift drops bits for unaligned signals longer than 32 bits): exact characterisation + refutation |
| C02 | `__ext_sig__` body with default typedefs | modular arithmetic on `(v ^ m) - m`; refutation beyond 32 bits |
| C03 | text of the pack expressions, `|=` lines, clearing loop | bitwise (`Z.testbit`) characterisation of each byte |
| C04, C05, C06 | both | from C01-C03 and the layout spec (injectivity of positions) |
| C07 | clearing loop bound with the scanner's maximum | conditional theorem, refutation through the scanner model |
| C08 | all array accesses of the evaluator | accesses outside `DLC` are an evaluation error, so successful evaluation proves it; pack frame condition |
| C09 | init value as parameter | exact characterisation (OR), refutation |
| C10, C11 | expression builder with explicit out-of-bounds outcome | case analysis; refutations for Motorola layouts and clamped start bits |
| C12, C13 | emitted bodies; for C13 also the message lines of the file (`Props_frameid.v`) | evaluation of the emitted text, C51 for the lines |
| C14, C15 | type selection with binary64 arithmetic | case analysis on length / interval arithmetic over Z; refutation for negative factors |
| C16, C17 | emitted macros + C evaluation | integer arithmetic; refutations for wrap-around |
| C18 | header generation loop | list induction; refutation with two messages |
| C19, C20, C21 | monitor part of unpack/pack as state machines on the emitted text | induction over histories; refutation for stickiness |
| C22 | checksum part, hash as a universally quantified function | proof under explicit hash conditions; refutation without |
| C23 | monitor fields | induction over histories |
| C24, C25 | tree construction + emitted `if` text + evaluation | induction over the tree span with sortedness; refutation for duplicate IDs |
| C26 | node classification, grouping, sort by any routine with the std::sort contract | list reasoning |
| C27 | message line parsing | case analysis on number texts; refutation for wrap-around |
| C28, C29, C30, C31, C33, C34, C46 | scanner as a fold over lines | invariants over the fold; refutations for C29-C31 |
| C32 | marker extraction | string search lemmas; refutation when text precedes the marker |
| C35 | `make_c_name` | induction over the string |
| C36 | option parsing | fold lemmas |
| C37 | abstract file system, directory preparation, flush | refutation, plus what does hold |
| C38 | file list of a run | case analysis on flags |
| C39 | file writer state machine | invariant over operation sequences; refutation for open failures |
| C40 | all emitted texts; conditions of #if, active #error lines, prototypes, included files (`GuardSpec.v`) | the guard's condition evaluates to zero after the header; membership lemmas over the line lists |
| C41 | comment emission | line lemmas; refutation for trailing backslash |
| C42 | padding computation | arithmetic; refutation for long rolling counter names |
| C43 | buffer sizes; the parts of a signal and their C terms (`LineSpec.v`) | the lines with all terms are in the emitted source, and the macro lines in the header (`LineDefs.v`); refutations for a crowded byte and a long description |
| C44 | fixed formatting of binary64 + cutting | arithmetic over Z on exact values |
| C45 | version line matcher | string lemmas; exception outcome for huge numbers |
| C47, C48 | comment and value table accumulation | induction over lines |
| C49 | path helpers | string lemmas |
| C50 | bit-field declaration and store semantics | modular arithmetic |
| C51 | printers for declared messages and signals, the relation to what was read (`SigSpec.v`) | line by line through the splitters and number readers, then over the groups of a file; refutations for tiny factors, units with a colon, overflow while types are chosen |
| C52 | names read off the data base (`NamesSpec.v`), `#define` lines of the emitted text | line by line through the emitted header (`HeaderNames.v`), then counting; `HeaderFirst.v` adds which of several equal value table names wins; clashes refute the general claim |
| C53 | places, names, types of members and macro names read off the declarations (`DeclSpec.v`), `project` links text, scan, generation and program | C51 gives the data base, `DeclThms.v` shows that it meets every condition of C01 to C05 and of the header, then their theorems are restated over declarations; `DeclTotal.v` shows that scanning and generation succeed |
| C54 | the emitted monitor files after comment removal (`uncomment` in `FilesSpec.v`), the preprocessor and parser of the C front end, `emitted` (a run wrote these files) | the texts are cut into lines and conditional blocks (`FilesProof.v`), which `FilesThms.v` runs through the front end for every set of macros; the call is read off the body of Unpack |
| C55 | the emitted configuration files, `switched` (the text after a user uncommented some definitions) | as C54 (`ConfigProof.v`), for all 128 selections at once; the members of the monitor are what C19 to C23 assume |
| C56 | the written numbers as rationals, the smallest types, `tolerance`, `recovered` (`PhysSpec.v`); doubles as in C18 | rounding of products, sums, quotients and decimal printing bounded once (`DblRound.v`, `PhysBound.v`), composed along the conversion macros (`PhysThms.v`), then to declarations as in C53 (`PhysDecl.v`) |
| C57 | the whole header and the heads of all functions as token lists (`OutlineSpec.v`) | every piece of the header is silent or yields its tokens under the macros of the configuration (`HeaderToks.v`); the header defines no switch, by the endings of all names (`SwitchNames.v`) |
| C58 | names of the declared members (`StructSpec.v`) | exact condition by list reasoning (`OutlineThms.v`), three refutations from DBC texts |
| C59 | receivers as declared, the utility files from the same data base, the receive struct as sub-objects (`RecvSpec.v`) | C24 joined with C53 and C56: messages received by a node are those the file declares for it (`RecvDecl.v`); refutation from a DBC text |
| C60 | a run on a file system that holds the DBC file; the programs are the texts found in the output directory afterwards (`RunSpec.v`) | C38 and C39 (files of a run) joined with C53 and C59: the texts left are those the other theorems speak of (`RunThms.v`); refutation by a run on a DBC file with nodes GW and gw |
| C61 | the expression `_m->Signal == Macro` in a unit with the macros of the header (`CmpSpec.v`) | the number and the type of the macro from C31 and C48, then cases on the types of the comparison (`CmpProof.v`; with signal conversion `CmpPhys.v` and `Props_cmpphys.v`, with Receive `RecvCmp.v` and `Props_recvcmp.v`); refutations from a DBC text |
| C62 | the macros `Name_DLC`, `Name_CANID`, `Name_IDE`, `Name_CYC` in a unit with the header, and the objects that Pack writes beside the payload | C13, C46 and C52 joined with the declarations of the file (`IdentProof.v`, `CmpPhys.v`); refutation from a DBC text |

## Trusted base

### Checker

* Coq 8.16.1: kernel and the `vm_compute` machine.  No kernel check is switched off.
* Every theorem `Cnn_...` is followed by `Print Assumptions` in its `Props_*.v` file.  The
  answer is `Closed under the global context` for each of them: no theorem uses an axiom.
* `coqchk` on the whole development additionally lists seven axioms of
  `Coq.ssr.ssrunder.Under_rel` (`Under_rel`, `Under_rel_from_rel`, `Under_relE`, `Over_rel`,
  `over_rel`, `over_rel_done`, `under_rel_done`).  They are opaque constants of the
  standard library's `ssreflect` plugin that come in because a library module is loaded.
  No theorem here depends on them.
* No axiom, no parameter, no admitted proof, no functor and no plugin of our own.

### Code that is modelled

All line numbers are in the comments of the definitions.

| Coq file | Source |
|---|---|
| `Types.v` | `types/message.h`, `types/c-expr.h`, `types/attributes.h`, `types/comment.h`, `types/outfile.h` |
| `Formatter.v` | `helpers/formatter.cpp` |
| `LineParser.v` | `parser/dbclineparser.cpp` |
| `Scanner.v` | `parser/dbcscanner.cpp` |
| `SigPrinter.v` | `codegen/c-sigprinter.cpp` |
| `MainGen.v` | `codegen/c-main-generator.cpp`, `codegen/mon-generator.cpp` |
| `UtilGen.v` | `codegen/c-util-generator.cpp`, `codegen/conditional-tree.cpp` |
| `StaticText.v` | `codegen/config-generator.cpp`, the two text templates |
| `Settings.v`, `FsModel.v` | `codegen/fs-creator.cpp` |
| `Writer.v`, `FsModel.v` | `codegen/filewriter.cpp` |
| `Options.v` | `options-parser.cpp` |
| `App.v` | `app.cpp`, and the call of `Run` in `maincli.cpp` |

### Code that is not modelled

* Console output: the help text and the progress messages.
* Members of the descriptors that nothing reads (listed in `Types.v`).
* The exit code of the program.
* `FsCreator::CreateSubDir`, which nothing calls.
* Files under `/repo/test` and build scripts.

### Assumptions about the C++ implementation

* `std::sort` is an arbitrary function that returns a permutation (`sorts`), or a
  permutation that is ordered by the key (`sorts_by`).  Theorems name the one they need.
  Nothing is assumed about the order of equal keys.
* `std::regex` with the fixed expressions of the parser behaves like the splitters in
  `LineParser.v`.  Each splitter names its expression.  Very long lines can exhaust the
  stack of some regex implementations; the model has no such limit.
* Classic locale.  Bytes above 127 are neither letters nor blanks, except in
  `str_trim` which tests for a signed `char` (see its comment).
* `int` has 32 bits, `long` and `long long` 64, `char` is signed and has 8 bits.  Doubles
  are IEEE binary64, rounded to nearest.  `atof`, `pow` and `snprintf` are correctly rounded.
* Memory allocation does not fail.
* When generation throws or hits undefined behaviour, the model's result is that outcome.
  Files that the real program has already written by then are not described.
* The file system has directories and regular files only.  Nobody else changes it during
  a run.  `..` is resolved textually.  Which files may not be opened is a parameter
  (`fs_deny`).

### Assumptions about the C implementation and the user's C code

These are the definitions that give a meaning to the generated text.  A reader has to
accept them as a description of C.

* `CSyntax.v`: lexer, expression and statement parser, preprocessor for the emitted
  directives.  A `#if` with a condition is skipped except where a theorem evaluates it.
  A `#` counts as a directive in column 0 only; the generator emits no others.
* `CSem.v`: types with `int` of 32 bits, promotions, conversions, wrap-around, undefined
  behaviour.  Conversions to signed types are modulo 2^N and right shifts of negative
  numbers are arithmetic, as GCC and Clang define.  `sigfloat_t` is `double`.
* `CRun.v`: function definitions, calls, sequential execution.
* Macros are expanded during evaluation.  All emitted macro bodies and arguments are
  parenthesised, for which this agrees with textual expansion.
* The functions that the user has to supply (`GetSystemTick`, `GetFrameHash`, the `FMon_`
  hooks, `__PackCanMsg` style frames) are universally quantified where a theorem mentions them.
* The typedefs are the ones in the generated `dbccodeconf.h`: `bitext_t` is `int32_t` and
  `ubitext_t` is `uint32_t`.

### Tests of the model

`Golden.v` runs the whole model on `/repo/test/testdb.dbc` with the options of
`/repo/run-test-gen.sh` and compares the result with the files in `/repo/test/gencode`.
This is a test, not a proof.  `seeded/LOG.jsonl` lists wrong edits to the model
and which theorems noticed them.  In that file `first_failure` is the lemma where the build
stopped and `theorems_failed` are the theorems of the named claims that could no longer be
built.  A stopped proof shows that the edit was noticed.  It does not by itself show that
the theorem is false for the edited model, because a lemma on the emitted text can stop first.
