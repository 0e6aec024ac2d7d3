# PIGO in Rocq: design

Source: /repo (GT-TDAlab/PIGO, header-only C++).  Everything is modelled by
hand from the text of `include/pigo.hpp`, `include/pigo/*.hpp` and
`include/pigo/impl/*.hpp` (`release/pigo.hpp` is their concatenation); nothing
was extracted or run.  Every definition of the model cites the lines it models.

## 1. Shape of the development

Three kinds of files in `rocq/theories/`:

* **Model** (what the code does), no proofs:

  | file | code |
  |------|------|
  | `Base.v` | outcomes, C++ integer types, bytes, a file mapped by `mmap` |
  | `Reader.v` | every member of `FileReader`, with the unguarded loads kept unguarded |
  | `Sched.v` | OpenMP teams as interleavings of atomic actions, static distribution, prefix sums |
  | `Coo.v` | edge list and Matrix Market readers, floating-point and signed weights |
  | `Fp64.v` | the arithmetic of `float` and `double` weights |
  | `Ascii.v` | `write_size`/`write_ascii` for integers and floats (stb), `COO::write` |
  | `Stb.v` | stb's conversion of a `double` to digits (`stbsp__real_to_str`: double-double arithmetic, tables) |
  | `Codec.v`, `Bin.v` | typed bytes; `File` open/seek/read/write, `parallel_read/write`; binary save and load of COO, CSR, Tensor, DiGraph |
  | `Csr.v` | COO->CSR, CSR->COO, `sort`, `new_csr_without_dups`, Graph queries, DiGraph/Matrix, transpose |
  | `Graph.v` | the adjacency (GRAPH) reader |
  | `Tensor.v`, `TensorOut.v` | Tensor readers, `Tensor::write`, `max_labels` |
  | `FindOff.v` | `FileReader::find_offsets` |
  | `Load.v` | the constructors that read a file, all formats, detection included |
  | `Own.v` | who owns the arrays: copies, assignment, frees, scope ends, over a heap of blocks; the storage-level conversion CSR->COO |
  | `Race.v`, `CsrFine.v`, `DupFine.v`, `GraphFine.v` | the parallel sections of the conversions and of the adjacency reader barrier interval by barrier interval, every access to shared memory logged |
  | `CrashText.v` | `COO::write` and `Tensor::write` when each thread has made some of its stores |
  | `Crash.v` | the byte stores of the `save` functions and the file after the first k of them |
  | `FileLife.v` | open, move, seek and close of `File` objects over an address space |

* **Specification** (`Spec*.v`, `ElSpec.v`): what files, rows, values and
  programs mean, written without the model's functions.  Two of them
  (`SpecOwn`, `SpecFile`) import the model file for the *syntax* of client
  programs only (constructors of `op`, `fop`, `cls`, `kind`).

* **Theorems**: `P_*.v` hold the property theorems, each with
  `Print Assumptions` and concrete cases (`Example`s, partly in
  `P_*Ex.v`, `ElExamples.v`) showing that the hypotheses are met.  All other
  files are lemmas.

### Outcomes

`res A = Ok a | Throw e | UB | Stuck`.  `UB` is every out-of-bounds load or
store, use of freed storage, signed overflow, read of an element never set
where that matters; `Stuck` is fuel exhausted.  All loops recurse on fuel equal
to a bound the *caller* knows (e.g. bytes left), so `= Ok _` also says that the
loop ends within that bound; C43/C50 turn fuel into termination/divergence
statements for all fuels.

### Memory

A mapped file of `n` bytes with page size `pg`: loads below `n` give the byte,
from `n` to the end of the last page give 0, beyond that are `UB`.  This is why
"size not a multiple of the page size" is a hypothesis of the reading theorems,
and the other case is a theorem of its own (C09, C35, C37, C39).

### Threads

Between two barriers each thread is a list of atomic actions (loads, stores,
atomic updates of one cell); a schedule is an arbitrary list of thread numbers,
and theorems quantify over all of them.  Data races are visible: two threads
storing to the same non-atomic cell is a separate theorem (C06, C25), not an
outcome.  `std::vector<bool>` updates in the adjacency reader are modelled as
word-level read/modify/write and can be lost.

## 2. Per property

| id | modelled | method |
|----|----------|--------|
| C01-C07 | `read_el`, all flags, all weight kinds, T threads, any interleaving | file grammar in `Spec.v`; lemmas per reader function; boundary lemma for the split (`CooSplit`); independence of the threads' stores; C02 with dropped entries: the stores are not independent, an invariant of interleavings bounds the values a cell can get (`RacyAny.v`) and two schedules are exhibited for every such file (`Racy.v`) |
| C08 | same, last line without newline | blocks of a file with a cut last line (`Frag*.v`); the outcome is derived for every such file |
| C09, C10 | same, page-multiple sizes (C09: arbitrary bytes, every text format and constructor: `PageMul.v`, `P_Page.v`), weighted with dropping flags | the cursor functions return or are undefined, the last thread's boundary search loads the byte after the mapping; `UB` is derived for every such file |
| C11 | `read_int` | induction on the digit run, wrap and overflow explicit |
| C12, C41 | `write_size`, `write_ascii` | induction on decimal length; floats: both passes format with the same function |
| C13, C14 | `COO::write` two passes, byte stores interleaved | partition of the output (`WriteGen`), composed with C01/C04 |
| C15-C20 | `save`, `read_bin_`, `parallel_*` | byte-level partition, little-endian codecs |
| C21 | `guess_file_type` | case analysis against a prefix/suffix spec |
| C22, C28, C30 | atomic degree count, prefix sums, atomic fetch-and-decrement scatter as interleaved small steps | invariant on the schedule |
| C23, C24 | `sort` with `std::sort`'s contract as a hypothesis; duplicate removal | row independence |
| C25-C27 | `convert_csr_` | row independence |
| C29, C31 | queries, transpose | direct |
| C32, C51 | heap of reference-counted blocks; programs over COO/Tensor variables | simulation: an invariant relates the heap to by-value variables, for every program |
| C33 | `read_mm_` | on top of C01/C03 |
| C34, C35, C53-C55 | `read_graph_` | token stream of the text with comments stripped; boundary lemma; pass 2 stops at the last newline; its stores are independent |
| C36, C37 | Tensor readers | as COO, `Blocks.v`/`TensorFrag*.v`, `TensorShort.v` (last line with too few labels) |
| C38, C49 | `Tensor::write`, `max_labels` | as C13 |
| C39 | `find_offsets` | boundary lemma |
| C40, C52 | `File` as a state machine | case analysis; simulation over programs |
| C42 | `read_fp` over abstract arithmetic, exact rationals as instance | induction on the literal |
| C56 | `read_fp` on IEEE binary64 and binary32 | integers: exactness of the operations by hand on `SpecFloat`; nearest and error bound: Flocq's correctness theorems and error algebra over the rationals; counterexamples by computation |
| C58 | `Stb.v`: `stbsp__real_to_str` on `SpecFloat` doubles | error analysis of the double-double products (Dekker splitting: exact where no bits are lost, 2^-72 relative otherwise, 2^-47 in the subnormal range), tables checked against exact powers of ten by computation in the kernel, integer arithmetic of the digit extraction; reading back by C56's lemmas; tensors (`P_StbTensor.v`) through the round trip of C38 for any weight text; counterexamples by computation |
| C59 | the constructors by file name of `Load.v` composed with the queries of `Csr.v` | composition of C01/C04/C05/C33 (what the COO holds), C21 (detection), C22 (conversion), C24 (duplicates), C29/C30 (queries); counting lemmas for the symmetric flag |
| C60 | `read_el` of `Coo.v` with a weight reader on files without weights (`SpecBare.v`) | the weight readers cross the line end (`Bare.v`); induction on the pairs of lines of a thread's part; the parts are the line groups of C01 |
| C61 | the binary `save`/`read_bin` functions of `Bin.v` with different codecs on the two sides, `digraph_read`, `guess` | reading the common part with either codec (`Reweigh.v`); zero bytes of the last page count as file bytes (`load_pad`); the tensor header shifted by a byte is arithmetic on little-endian strings |
| C62 | `gr_count`, `gr_set`, `read_graph` of `Graph.v` | a line is text plus an optional comment (`SpecTouch.v`); both passes are followed by induction on the rest of the body, pass 2 up to the row it stops at (`GraphTouch.v`); one thread; two Examples show teams of 2 and 3 giving other results |
| C63 | `Life.v`: the constructors of `Load.v` with the storage of `Own.v` | `read_mm` and `read_graph` are split at the comparison with the header (`GraphSplit.v`, `LifeLemmas.v`) and shown equal to the unsplit readers; the constructor with storage follows the constructor without for every outcome (`LifeMain.v`), so every theorem about `coo_open`/`csr_open` transfers; new blocks are a suffix of the heap, disposal is computed on it. Not followed: an array allocated just before an allocation of negative length is refused (signed types) |
| C64 | `Reader.v` (all of `FileReader` except `read_fp`, `find_offsets` (C39) and `count_spaces_to_eol`) | specification in `SpecCursor.v`: the first position with a property, membership in a comment, text at a position; every loop is shown to return that position by induction on the distance to the end (`Cursor.v`), comments by composing the first position outside the comments that start after `d` (`P_Cursor.v`) |
| C65 | `Retype.v`: the cross-type constructors as the same-type conversion of a source whose values have been cast (every value is read through exactly one cast); this lifts the 'equal types' simplification of `Csr.v` | lemmas in `RetypeLemmas.v` relate `wrap` to the identity when the values fit, and run the conversions on a source with reduced sizes when they do not; then C22, C26, C27 |
| C66 | `Matrix.v`: `Matrix(fn)`, `from_coo_`, `nrows`, `ncols` over `Load.v` and `Csr.v` | composition of C01/C04/C33/C34 (what the COO holds), C21, C22 for the COO and its transpose; C27 for the missing dimensions |
| C67 | `Crash.v`: `save` as phases of byte stores to the shared mapping, `interrupted`: the file after the first k stores of any interleaving; the readers of `Bin.v` and `Load.v` | the phases run to their end are `coo_save`, `csr_save`, … (`C67_stores`); a prefix of the stores leaves each byte final or as created (`CrashLemmas.v`); little-endian fields with only some low bytes stored are smaller (`partial_int`, `lower_ints` in `CrashRead.v`), so the arrays announced lie inside the file; the arrays are those of the stored bytes; theorems `*_left` are about any surviving subset of the stores |
| C68 | `CrashText.v`: the stores of `COO::write`/`Tensor::write` (`Ascii.v`, `TensorOut.v`), each thread's cut after n of them | the first k stores of an interleaving are an interleaving of prefixes (`prefix_run`); every store puts a byte of the final text, or the 0 behind a floating-point number, at its place (`vals`, `exec_partly`), so the file is `partly_written`; with each thread between two entries the file is a well-formed edge list (tensor file) whose gaps hold the blanks (`glue`, `file_bl`), so C01/C04/C36 apply; stopped anywhere: the last byte is no digit, so C43 applies |
| C69 | no new definitions: the constructors, `save`, `write` and conversions composed | `result_full`, `built`: the COO of `el_result`, and the CSR `convert_coo` makes of it, have `coo_shape/full`, `csr_shape/full` and `room` (hypotheses of C15/C16/C18); `convert_no_weights`; the file `COO::write` makes is `file_of` a permutation of the entries (C25, `entries_rows_perm`), a well-formed edge list, so C59 applies again, and graphs do not depend on the order of the lines (`is_graph_perm`). `C69_tensor_chain` (P_TensorChain.v) composes C36, C17, C38 and C36 on the file written (`tmode_file`) For (f), P_ChainMm.v composes the Matrix Market load with the same steps; for (g), P_ChainGraph.v that of a GRAPH file (C34). |
| C70 | `read_el` of `Coo.v` (the `arith L (max + 1)` at its end), `coo_open`, `csr_open`, `digraph_open` of `Load.v` | `ElLarge.v` restates the main lemma of C01 with labels up to `imax L`, leaving the two additions in the result; `arith` at the top of each type by cases; `convert_bad` of `RetypeLemmas.v` for the graphs; `mm_main_gen` of `MmLemmas.v` (the Matrix Market reader with the two additions left in the result) for (d) |
| C71 | `read_graph`, `convert_csr` of `Csr.v`/`Graph.v`, `coo_open`, `digraph_open`, `matrix_open` of `Load.v`/`Matrix.v`, `coo_write` of `Ascii.v` | `GraphPart.v`: a CSR whose `n()` is less than the number of rows it stores is converted with the stores of the CSR of the first rows only, and more cells behind the arrays do not matter (frame lemma `longer_run`); a COO with an indeterminate row cannot be converted |
| C57 | `*Fine.v`, `RaceIO.v` (tensor, `find_offsets`, parallel copies): logs of accesses (element, kind) per barrier interval | thread-modular invariants (`RaceLemmas.modular`): each thread keeps its own assertion, which the others' actions preserve, and touches only locations of its own, or atomically, or only reads; the coarser model of Csr.v is shown to return the same CSR; `SpecLog.v`/`Log.v`/`LogDup.v`: the logs are complete, by comparing the action on two memories that agree on the cells logged as read |
| C43, C50 | all readers on arbitrary bytes | progress measure; invariant of the non-terminating loop; for the adjacency reader the invariant that each pass stops at a digit, a newline or the last byte, by which the second pass stores at most the numbers the first one counted; for edge lists and Matrix Market the two passes are related to one list of labels (ArbFull.v): the byte before the end of a chunk is no digit, so what pass 1 counts pass 2 stores; the graphs and the Matrix built from such a file (P_Arb, P_ArbMatrix) follow from C56/C67 |
| C45, C46, C48 | integer overflow in sizes | `UB` derived for every such input |
| C47 | truncated binary files | case analysis of the transfers (UB); zero bytes up to the end of the page are as good as bytes of the file, so the arrays are those of the file padded with zeros (SpecCut.v, P_Cut.v); a header field cut after j bytes is its value mod 256^j (`rd_field`, P_CutHead.v); bytes without a digit are an edge list without edges, hence a CSR of one vertex (P_CutGap.v); so is everything behind the end of the file (P_CutFirst.v) |

## 3. Findings (the code violates what a user expects; each is a theorem)

C08 unterminated last line counted but not stored, or a weight stored outside;
C09/C35/C37/C39 page-multiple files read past the mapping;
C02 weighted read with dropping flags: a thread overwrites the first weight of the next;
C10 weighted read with dropping flags stores past the weights;
C12 `write_size` of the minimum of a signed type;
C27 a COO built from a CSR has indeterminate nrows/ncols;
C32 CSR copies share storage, second `free` is a double free; empty raw-pointer containers leak;
C33 an honest Matrix Market header is rejected when a flag drops an entry;
C35 one-based adjacency files lose their last row;
C37 Windows line ends and exponents change a tensor's order;
C39 an occurrence at the first byte is not found;
C45 conversion of a COO with the largest n;
C46 COO from a CSR file when Ordinal is wider than Label;
C47 truncated binary files are not detected (a DiGraph file cut between its CSRs loses all outgoing edges);
C48 order*m overflows Ordinal;
C50 an adjacency file ending in `%` or `#` is read forever;
C51 vector weights are read after they were destroyed;
C53 empty rows before the first number of an adjacency file are skipped;
C54 comment lines between the rows of an adjacency file become empty rows and shift the rows after them;
C55 an unterminated last line of an adjacency file is rejected, or counted and not stored;
C56 decimals with an integer part, negative exponents and large integers as float are not read as the nearest value;
C58 weights below half a millionth are written as zero, text is not always the nearest decimal, NaN and infinite weights make the written file unreadable;
C57 the flags of the GRAPH reader (`std::vector<bool>` elements set concurrently) are a data race;
C60 a weighted read of an edge list without weights stores half of the lines or none, depending on the number of threads, and leaves the other cells uninitialised;
C62 a comment right after a number in an adjacency file silently shifts the rows and loses the last ones;
C61 binary files opened with another weight parameter: COO and CSR silently reinterpret, an unweighted DiGraph parses the rest of a weighted file as text, an unweighted Tensor reads a weighted file one byte off;
C63 constructors that throw lose arrays on raw pointers: adjacency file contradicting its header, flags refused after the CSR was read, second graph of a DiGraph;
C64 `FileReader::read_sign` does not advance although its documentation says so; `at_str` is false when the range is exactly the string; at the end of a range that is followed by a sign `move_to_next_signed_int` leaves the range, and before a range end followed by a comment `move_to_next_int_or_nl` stops one byte short; six operations read the byte at the end of the range and are undefined at the end of a page-multiple file;
C65 constructing a CSR or COO with narrower template types silently reduces `n`, `m` and every label modulo 2^bits: vertices merge, entries are dropped, or the arrays are overrun, without an exception.
C66 the CSC of a Matrix has the CSR's `nrows`/`ncols` unswapped; `Matrix::nrows()` converts a Label to an Ordinal; a Matrix read from a `.graph` file or a saved CSR has indeterminate dimensions.
C67 an interrupted `save` is not detected on load: as soon as the magic string and the size bytes are stored the file loads without error, with zeros in place of what is missing; the file that was overwritten is lost at once (`fopen "w"`); an empty COO whose save is interrupted before its last store announces 256^(sizeof-1) entries (`C67_empty`: UB or made-up entries);
C68 an interrupted text write is not detected either, and unlike after C67 the entries that load need not be in the object: digits are stored from right to left and the newline last, so entries that never existed load (`C68_made_up`), and an entry that was written completely can be swallowed by an unfinished one before it (`C68_finished_lost`);
C70 an edge list with the largest value of the label type loads without error, but the COO reports 0 rows (columns), and a graph built from it writes outside its arrays; with `int32_t`/`int64_t` labels the read itself overflows; a Matrix Market file with that many rows or columns is refused;
C71 (consequence of C35) a `DiGraph` or `Matrix` built from an adjacency file whose vertices are numbered from 1, with the right number of vertices in its first line, is undefined unless the last vertex has no neighbours: the COO built on the way has as many entries as the file, but the row of the last vertex is never copied into it, and its uninitialised coordinates are used as indices;
C52 `File`'s move constructor does not transfer ownership, move assignment keeps the old name and position.

## 4. Trusted base

* Coq 8.16.1's kernel (and `vm_compute`, used in Examples and in decision of
  finite facts about the 8 integer types).
* `Print Assumptions` prints "Closed under the global context" for every
  theorem of MANIFEST.json (no axioms, no functional extensionality, no
  classical logic) except these: `C56_double_fraction_nearest`,
  `C56_double_scaled_nearest` and `C56_double_error` (`P_DoubleNear.v`),
  `C58_double_text`, `C58_float_text`, `C58_small_weights_vanish`,
  `C58_double_round_trip`, `C58_float_round_trip` and
  `C58_double_round_trip_error` (`P_Stb.v`), and
  `C58_tensor_double_round_trip`, `C58_tensor_float_round_trip` and
  `C58_tensor_double_round_trip_error` (`P_StbTensor.v`) use
  Flocq's proofs that the operations of `SpecFloat` round to nearest, and with
  them the axioms of the standard library's real numbers:
  `ClassicalDedekindReals.sig_not_dec`, `ClassicalDedekindReals.sig_forall_dec`,
  `FunctionalExtensionality.functional_extensionality_dep` and
  `Classical_Prop.classic`.  Flocq adds no axiom; the constants and equations of
  `Coq.Reals.Rdefinitions` that a check of the loaded libraries lists
  (`RbaseSymbolsImpl.*`, `RinvImpl.*`) are the standard library's sealed
  definitions of the real operations.  The axioms a check of the *loaded libraries* lists
  (`Coq.ssr.ssrunder.Under_rel.*`, 7 of them) come from the standard library's
  ssreflect support, loaded by `Lia`/`ZArith`'s dependencies; no theorem here
  depends on them.
* The reading of the C++ code: that the definitions say what the cited lines do.

### Modelled

All of `FileReader`; `File` (READ and WRITE); `COO`, `CSR`, `Graph`, `DiGraph`,
`Matrix`, `Tensor`: constructors from files and from each other, conversions,
queries, text and binary writers, frees and copies.

### Simplified or not modelled

* `size_t` and pointer arithmetic: `nat`, never wraps (files and arrays are far
  below 2^64 bytes).  Label and Ordinal arithmetic is not simplified: it wraps
  or overflows according to the C++ rules for each type (promotion included).
* Alignment and strict aliasing of the casts in `File::read/write` are ignored;
  values are little-endian byte strings (`Codec.v`).
* `malloc` and the system calls succeed; `malloc(0)` gives an empty block.
* A store outside the mapping of a file being written is `UB` even when the
  page would have absorbed it; a reader beyond its end has 0 bytes left (nat
  subtraction).
* Teams: every parallel region of a call uses the same number of threads;
  `omp for` is distributed statically (contiguous increasing blocks) where the
  order of results matters (`COO::write`, `Tensor::write`; C13_static_schedule
  says what a different distribution does) and arbitrarily elsewhere.
  Sequentially consistent atomics.  Data races (C57): locations are array
  elements; storage whose elements share memory (`std::vector<bool>` as a
  storage type) is outside, except for `have_zeros` where it is modelled.
  Loads from arrays that no thread writes in an interval belong to the action
  that uses the value (and are logged).
* Floating point: `+ - * pow` are parameters (`fpops`); C42 instantiates them
  with exact rationals, C56 with IEEE binary64/binary32 (`Fp64.v`, the standard
  library's `SpecFloat`: round to nearest even, no extended precision, no fused
  multiply-add); `std::pow(10., z)` stays a parameter with a stated accuracy.
  For text output C14 and C41 take the digits
  and exponent produced by stb's `real_to_str` as a
  parameter (everything after, placing digits, sign, exponent, sizes, is
  modelled); C58 replaces it by the model of `real_to_str` on IEEE binary64
  (`Stb.v`; NaN has no sign and no payload, so the text of a NaN is `NaN`; the
  bit manipulation of the representation is done on mantissa and exponent; the
  decimal literals of the tables are the nearest doubles).
* `std::sort` is any function meeting its contract.
* `Own.v`: handles are block numbers, elements are cells; `FileLife.v`: a
  mapping is identified by its first address, `munmap` of an address removes the
  mapping that starts there, where the kernel puts mappings is a parameter.
* Not modelled: timing, memory exhaustion, signals, concurrent modification of
  a file by another process, exceptions inside parallel regions, the CMake and
  release scripts, the example programs.

## 5. Mutation testing

`seeded/LOG.jsonl` records edits of the model (wrong boundary, dropped update,
swapped argument, missed case...), the theorems that failed, and the statements
tightened because of a survivor.  Survivors that are equivalent to the original
are marked as such.
