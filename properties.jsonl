{"id": "C01", "title": "Edge list read is exact", "statement": "Constructing an unweighted COO without flags from a well-formed edge list file (every data line newline terminated, labels in range) yields m() = number of data lines and x()[i], y()[i] equal to the two numbers on the i-th data line, in file order.", "quantifier": "every well-formed file (any number of lines, any separators, comments, blank lines), every label type, every OpenMP team size, every interleaving of the threads' stores", "why_tests_cant": "files, team sizes and interleavings are unbounded; tests fix one of each", "anchors": ["include/pigo/impl/coo.impl.hpp:read_el_", "include/pigo/impl/coo.impl.hpp:read_coord_entry_i_", "include/pigo/impl/pigo.impl.hpp:FileReader::move_to_next_int", "include/pigo/impl/pigo.impl.hpp:FileReader::read_int"]}
{"id": "C02", "title": "Edge list read does not depend on the number of threads or the interleaving", "statement": "For a well-formed edge list the COO built with any two team sizes and any two interleavings is identical (same arrays, same order, same sizes): without weights for every combination of flags, with weights whenever the flags drop no entry. A weighted read whose flags drop entries, but not the last one (which C10 covers), is only partly deterministic: every team and every interleaving gives the right sizes and labels, and the right weights except that the weight of an entry that follows a dropped one in the file may come out as zero or as the weight of a dropped entry. Running the threads one after the other, in order, gives the right weights; and with at least a thread per byte of the file every dropped entry has an interleaving in which the next stored weight comes out as zero.", "quantifier": "every pair of team sizes and of interleavings, every well-formed file, every flag combination", "why_tests_cant": "schedules cannot be enumerated by tests", "anchors": ["include/pigo/impl/coo.impl.hpp:read_el_"]}
{"id": "C03", "title": "Flags symmetric / upper-triangle-only / remove-self-loops of an edge list read", "statement": "For an unweighted COO with any combination of the flags, the result is exactly the file's entry sequence with, per entry: dropped if self loop and remove_self_loops; dropped if x>y and keep_upper_triangle_only without symmetric; swapped to x<=y if symmetric and keep_upper_triangle_only; followed by its transpose if symmetric, not keep_upper_triangle_only and x<>y.", "quantifier": "all 8 flag combinations, every well-formed file, every team size and interleaving", "why_tests_cant": "flag combinations times files times schedules", "anchors": ["include/pigo/impl/coo.impl.hpp:read_coord_entry_i_", "include/pigo/impl/coo.impl.hpp:read_el_"]}
{"id": "C04", "title": "Weights stay attached to their entries", "statement": "For a weighted COO (unsigned, signed or floating point weights) whose flags drop no entry, the weight stored at position i is the value of the weight numeral of the entry stored at position i (a transposed copy carries the weight of its original).", "quantifier": "every well-formed weighted file, every weight type, symmetric or not, every team size and interleaving", "why_tests_cant": "files and schedules unbounded", "anchors": ["include/pigo/impl/coo.impl.hpp:read_wgt_i_", "include/pigo/impl/coo.impl.hpp:read_coord_entry_i_"]}
{"id": "C05", "title": "Reported dimensions bound the labels", "statement": "After an edge list read nrows() = 1 + largest first label read and ncols() = 1 + largest second label read (1 when there is none), n() = max(nrows, ncols), so without symmetric every stored label is below the dimension; with symmetric the dimensions describe the entries as read and the stored transposes need only be below n().", "quantifier": "every well-formed file and label type whose maximum is not reached, every flag combination", "why_tests_cant": "maxima over unbounded data and reductions over threads", "anchors": ["include/pigo/impl/coo.impl.hpp:read_el_"]}
{"id": "C06", "title": "Edge list read: no data race and no out-of-bounds access", "statement": "While reading a well-formed edge list every load lies in the mapping and every store in the allocated arrays, every cell of the arrays is written, and no cell is written by two threads or twice.", "quantifier": "every well-formed file, every flag combination whose reading is defined, every team size", "why_tests_cant": "absence of races and of out-of-bounds accesses over all schedules", "anchors": ["include/pigo/impl/coo.impl.hpp:read_el_", "include/pigo.hpp:set_value_"]}
{"id": "C07", "title": "Comments, blank lines, carriage returns and trailing text are ignored", "statement": "Two well-formed edge list files with the same sequence of label pairs produce the same COO, whatever comments ('#' or '%' to the end of line), blank lines, separators, carriage returns and text after the second label they contain.", "quantifier": "every pair of well-formed files with equal data", "why_tests_cant": "unbounded layouts", "anchors": ["include/pigo/impl/pigo.impl.hpp:FileReader::skip_comments", "include/pigo/impl/pigo.impl.hpp:FileReader::move_to_first_int", "include/pigo/impl/coo.impl.hpp:read_el_"]}
{"id": "C08", "title": "An unterminated last line is not read reliably", "statement": "Take an edge list whose last data line has no newline. If the file ends right after the second label and there are no weights, a COO without flags counts the line in m() and reserves space for it but never assigns its labels (they are indeterminate) and ignores it in nrows()/ncols()/n(), while a COO with any flag silently drops it: the result is that of the file without the line. If the file ends right after a weight, a weighted COO stores the weight but not the labels (m() counts the line), or, when no cell was reserved for the line (floating-point weights with any flag, or a line the flags drop), writes the weight past the end of the weight array. If anything follows the second label, even one space, an unweighted COO reads the line as if the newline were there.", "quantifier": "every such file, label/ordinal/weight type, flag combination, team size and interleaving", "why_tests_cant": "holds for all files, team sizes and interleavings; indeterminate values and out-of-bounds writes need not be visible in a test", "anchors": ["include/pigo/impl/coo.impl.hpp:read_coord_entry_i_", "include/pigo/impl/coo.impl.hpp:read_coord_entry"]}
{"id": "C09", "title": "Text files whose size is a multiple of the page size are read past the mapping", "statement": "Reading a non-empty text file whose size is an exact multiple of the page size loads the byte after the end of the mapping (undefined behaviour), whatever the file contains, for every team size: as an edge list, as a Matrix Market file with the supported banner, or as an adjacency file, through the constructors of COO, CSR/Graph and DiGraph, and as a tensor. An unweighted edge list of any other size, whatever it contains, never does (unsigned labels, and an ordinal type that can count the entries of a file of that size).", "quantifier": "every file content, page size, team size, label and ordinal type, file name and flags", "why_tests_cant": "needs a quantification over file sizes and memory layout", "anchors": ["include/pigo/impl/pigo.impl.hpp:FileReader::move_to_first_int", "include/pigo/impl/pigo.impl.hpp:File::File"]}
{"id": "C10", "title": "Weighted reads with entry-dropping flags write outside the weights array", "statement": "For a weighted COO with remove_self_loops (or upper-triangle-only without symmetric), if the last data entry is dropped by the flag, a weight is stored one past the end of the weight array, whatever the team size.", "quantifier": "every well-formed weighted file whose last entry is dropped, every weight, label and ordinal type, team size and interleaving", "why_tests_cant": "one past the end store is silent in tests", "anchors": ["include/pigo/impl/coo.impl.hpp:read_coord_entry_i_", "include/pigo/impl/coo.impl.hpp:read_wgt_i_"]}
{"id": "C11", "title": "Integer parsing", "statement": "Reading an integer of type T from the text at the cursor skips non-digits, then consumes exactly the maximal run of digits and returns its decimal value, modulo 2^bits for types where C++ arithmetic wraps; for signed types of at least 32 bits a value above the maximum is undefined behaviour.", "quantifier": "every byte string, every integer type, every numeral length", "why_tests_cant": "numeral lengths and widths unbounded", "anchors": ["include/pigo/impl/pigo.impl.hpp:FileReader::read_int"]}
{"id": "C12", "title": "Written size equals written bytes for integers", "statement": "For every value of every integer type except the minimum of a signed type, the number of bytes write_size announces equals the number of bytes write_ascii stores, and these bytes are the canonical decimal numeral of the value; for the minimum of a signed type the claim fails.", "quantifier": "every integer type and every value", "why_tests_cant": "2^64 values", "anchors": ["include/pigo.hpp:write_size", "include/pigo/impl/pigo.impl.hpp:write_size", "include/pigo.hpp:write_ascii", "include/pigo/impl/pigo.impl.hpp:write_ascii"]}
{"id": "C13", "title": "COO text write emits exactly the entries", "statement": "COO::write produces the file consisting of one line 'x y\\n' (or 'x y w\\n') per entry, in index order when the loop iterations are assigned to threads in contiguous increasing blocks, with each byte written exactly once; the result is independent of interleaving and of the team size.", "quantifier": "every COO content, every team size, every interleaving of byte stores", "why_tests_cant": "schedules and sizes unbounded", "anchors": ["include/pigo/impl/coo.impl.hpp:write", "include/pigo/impl/pigo.impl.hpp:FilePos::write"]}
{"id": "C14", "title": "Text write then read is the identity", "statement": "Reading as an edge list the file produced by COO::write (unweighted, or integer weighted, in-range labels) yields the same x, y, w and m, for any team sizes used for writing and reading.", "quantifier": "every COO, all team sizes and interleavings of both operations", "why_tests_cant": "round trip over unbounded values", "anchors": ["include/pigo/impl/coo.impl.hpp:write", "include/pigo/impl/coo.impl.hpp:read_el_"]}
{"id": "C15", "title": "COO binary round trip", "statement": "COO::save followed by constructing a COO of the same template parameters from the saved file yields the same nrows, ncols, n, m, labels and weights.", "quantifier": "every COO content and type parameters, every team size and interleaving for both operations", "why_tests_cant": "unbounded sizes and schedules", "anchors": ["include/pigo/impl/coo.impl.hpp:save", "include/pigo/impl/coo.impl.hpp:read_bin_", "include/pigo/impl/pigo.impl.hpp:File::parallel_write", "include/pigo/impl/pigo.impl.hpp:File::parallel_read"]}
{"id": "C16", "title": "CSR binary round trip", "statement": "CSR::save followed by constructing a CSR of the same template parameters from the file yields the same n, m, nrows, ncols, offsets, endpoints and weights.", "quantifier": "as C15", "why_tests_cant": "as C15", "anchors": ["include/pigo/impl/csr.impl.hpp:save", "include/pigo/impl/csr.impl.hpp:read_bin_"]}
{"id": "C17", "title": "Tensor binary round trip", "statement": "Tensor::save followed by constructing a Tensor of the same template parameters from the file yields the same order, m, coordinates and weights.", "quantifier": "as C15", "why_tests_cant": "as C15", "anchors": ["include/pigo/impl/tensor.impl.hpp:save", "include/pigo/impl/tensor.impl.hpp:read_bin_"]}
{"id": "C18", "title": "DiGraph binary round trip", "statement": "DiGraph::save followed by constructing a DiGraph from the file yields the same in- and out- CSR.", "quantifier": "as C15", "why_tests_cant": "as C15", "anchors": ["include/pigo/impl/graph.impl.hpp:save", "include/pigo/graph.hpp:DiGraph"]}
{"id": "C19", "title": "Binary files of other template sizes are rejected", "statement": "Constructing a COO, CSR or Tensor from a binary file saved with a different sizeof(Label) or sizeof(Ordinal) throws Error and never reads the payload; so does a file whose header differs.", "quantifier": "every saved object and every pair of template sizes", "why_tests_cant": "cross product of type parameters and contents", "anchors": ["include/pigo/impl/coo.impl.hpp:read_bin_", "include/pigo/impl/csr.impl.hpp:read_bin_", "include/pigo/impl/tensor.impl.hpp:read_bin_", "include/pigo/impl/pigo.impl.hpp:File::read"]}
{"id": "C20", "title": "Announced save size equals the bytes written", "statement": "The file created by save has exactly the number of bytes that the sequence of header, size and payload writes stores; every byte of the file is written exactly once and none outside.", "quantifier": "every object and type parameters, every team size and interleaving of the parallel copy", "why_tests_cant": "unbounded sizes", "anchors": ["include/pigo/impl/coo.impl.hpp:save", "include/pigo/impl/csr.impl.hpp:save", "include/pigo/impl/tensor.impl.hpp:save", "include/pigo/impl/graph.impl.hpp:save", "include/pigo.hpp:weight_size_"]}
{"id": "C21", "title": "File type detection", "statement": "guess_file_type returns the PIGO binary type whose magic string prefixes the file (with at least one further byte), throws Error for any other file starting with the PIGO prefix (again with at least one further byte), otherwise decides by the file name's suffix (.mtx -> MATRIX_MARKET, .graph -> GRAPH), otherwise EDGE_LIST; the Matrix Market banner is not looked at.", "quantifier": "every file content and every file name", "why_tests_cant": "unbounded contents", "anchors": ["include/pigo/impl/pigo.impl.hpp:File::guess_file_type"]}
{"id": "C22", "title": "COO to CSR conversion", "statement": "Building a CSR from a COO whose labels are below n() yields offsets with offsets[0]=0, offsets[n]=m, offsets[v+1]-offsets[v] = number of entries with first label v, and the endpoints (with weights) of row v form a permutation of the second labels (with weights) of the entries with first label v.", "quantifier": "every COO, every team size, every interleaving of the atomic scatter", "why_tests_cant": "atomic interleavings", "anchors": ["include/pigo/impl/csr.impl.hpp:convert_coo_"]}
{"id": "C23", "title": "CSR sort", "statement": "CSR::sort leaves n, m, offsets unchanged, and makes every row's endpoints ascending while permuting the (endpoint, weight) pairs within the row.", "quantifier": "every CSR and every sorting algorithm meeting std::sort's contract, every row schedule", "why_tests_cant": "unbounded rows", "anchors": ["include/pigo/impl/csr.impl.hpp:sort"]}
{"id": "C24", "title": "Removing duplicates", "statement": "new_csr_without_dups first sorts the original, then returns a CSR whose row v is the strictly increasing list of the distinct endpoints of row v of the original, each with the weight it carries first in the sorted row (the least one, as pairs are compared lexicographically); offsets and m are consistent and n, nrows, ncols are those of the original.", "quantifier": "every CSR with labels below the largest label, every sorting algorithm meeting std::sort's contract, every distribution of the rows and interleaving", "why_tests_cant": "unbounded rows and schedules", "anchors": ["include/pigo/impl/csr.impl.hpp:new_csr_without_dups"]}
{"id": "C25", "title": "CSR to COO conversion", "statement": "Building a COO (no flags) from a CSR with well-formed offsets yields m entries: row by row, in endpoint order, (v, endpoint) with its weight; every cell is written once.", "quantifier": "every well-formed CSR, every team size, chunk assignment and interleaving", "why_tests_cant": "schedules", "anchors": ["include/pigo/impl/coo.impl.hpp:convert_csr_"]}
{"id": "C26", "title": "CSR to COO with flags", "statement": "With symmetric (not upper-triangle) every CSR entry (u,v) yields (v,u) then (u,v), self loops included twice; with symmetric and upper-triangle every entry is swapped to x<=y; upper-triangle without symmetric and remove-self-loops throw NotYetImplemented.", "quantifier": "every well-formed CSR, schedule", "why_tests_cant": "schedules", "anchors": ["include/pigo/impl/coo.impl.hpp:convert_csr_"]}
{"id": "C27", "title": "COO built from CSR leaves nrows/ncols unassigned", "statement": "A COO converted from a CSR assigns n() and m() but never nrows() or ncols(), so save() of it writes indeterminate values.", "quantifier": "every CSR", "why_tests_cant": "indeterminate values look plausible in tests", "anchors": ["include/pigo/impl/coo.impl.hpp:convert_csr_", "include/pigo/impl/coo.impl.hpp:save"]}
{"id": "C28", "title": "COO -> CSR -> COO is a permutation", "statement": "Converting a COO to a CSR and back yields a permutation of the original entries (with weights), grouped by ascending first label.", "quantifier": "every COO with labels below n, all schedules of both conversions", "why_tests_cant": "atomic interleavings", "anchors": ["include/pigo/impl/csr.impl.hpp:convert_coo_", "include/pigo/impl/coo.impl.hpp:convert_csr_"]}
{"id": "C29", "title": "Graph degree and neighbour queries", "statement": "For a Graph built from a CSR, degree(v) is the number of entries of row v, neighbors(v) ranges exactly over them, and the degrees sum to m.", "quantifier": "every CSR with well-formed offsets and every vertex", "why_tests_cant": "all vertices of all graphs", "anchors": ["include/pigo/graph.hpp:Graph::degree", "include/pigo/graph.hpp:Graph::neighbors"]}
{"id": "C30", "title": "DiGraph and Matrix in/out duality", "statement": "For a DiGraph (Matrix) built from a COO, v is in the out-row of u exactly as often as u is in the in-row of v, and equals the multiplicity of (u,v) in the COO; the out-row of u and the in-row of v are, with their weights, permutations of the COO's entries with first label u and with second label v.", "quantifier": "every COO, all vertices, all schedules", "why_tests_cant": "multiplicity over all pairs and schedules", "anchors": ["include/pigo/impl/graph.impl.hpp:DiGraph", "include/pigo/matrix.hpp:Matrix"]}
{"id": "C31", "title": "COO transpose", "statement": "transpose swaps x and y and keeps everything else (in particular nrows and ncols are not swapped); applying it twice restores the COO.", "quantifier": "every COO", "why_tests_cant": "all contents", "anchors": ["include/pigo/coo.hpp:transpose"]}
{"id": "C32", "title": "Ownership: copies and frees", "statement": "COO and Tensor objects behave as values: any sequence of constructing, copying, assigning (also to itself), freeing (also twice), transposing, changing dimensions, storing to and reading from COO and Tensor variables, on raw pointers, vectors or shared pointers, with or without weights, runs without double free or use after free and reads exactly what a by-value copy semantics says; so a write to or free of one object never affects a copy of it. If the client frees objects on raw pointers before they go out of scope no array with elements is lost; arrays of objects without entries allocated with malloc are lost. CSR (and Graph, CSC) is different: a copy shares its storage on raw and shared pointers, is independent on vectors; freeing a CSR twice, or a CSR and its copy, or a default-constructed CSR, on raw pointers is undefined behaviour. Allocating gives exactly n storable elements: a vector keeps what it has up to the new length and zero-fills the rest, raw and shared pointers get elements without values, and no other member changes.", "quantifier": "all histories of operations over any number of objects, all storage kinds, all orders of the parallel copy loops", "why_tests_cant": "aliasing and lifetime errors depend on the whole history of copies, assignments and frees, of which there are infinitely many", "anchors": ["include/pigo/coo.hpp:174-198", "include/pigo/coo.hpp:305-340", "include/pigo/tensor.hpp:107-219", "include/pigo/csr.hpp:246-250", "include/pigo.hpp:485-585"]}
{"id": "C33", "title": "Matrix Market header", "statement": "Reading a well-formed Matrix Market coordinate file whose header is consistent with its body gives the entries of the body (mirrored/filtered by the flags) in file order, nrows = header rows + 1, ncols = header cols + 1. It is consistent when no stored label exceeds the announced dimensions and the announced nnz equals the number of stored entries (no flags or upper-triangle only), is at most that number (self-loop removal), or at most twice it (symmetric). Otherwise Error is thrown; in particular an honest header is rejected as soon as a non-symmetric flag drops an entry. Any other banner throws NotYetImplemented.", "quantifier": "every well-formed file, all team sizes and interleavings", "why_tests_cant": "unbounded files", "anchors": ["include/pigo/impl/coo.impl.hpp:read_mm_"]}
{"id": "C34", "title": "GRAPH (adjacency) files are read exactly", "statement": "A CSR or COO constructed from an adjacency file that numbers vertices from 0 holds exactly the file's rows, counted from the first line that holds a number (see C53 for empty lines before it): line i is row i, in order, n() is the number of lines, m() the number of numbers, nrows and ncols are n() and the largest label plus one. A header that announces neither m() nor m()/2 entries, or more rows than there are, throws Error, and any other header is accepted.", "quantifier": "every well-formed file (comments and blanks around the header, any blanks and empty lines in the body, no comment in the body, newline-terminated, first row non-empty), every pair of label/ordinal types it fits in, every page size that does not divide the file size, team size and interleaving", "why_tests_cant": "unbounded files, types, splits and schedules", "anchors": ["include/pigo/impl/csr.impl.hpp:read_graph_", "include/pigo/impl/pigo.impl.hpp:FileReader::move_to_next_int_or_nl", "include/pigo/impl/pigo.impl.hpp:FileReader::at_zero"]}
{"id": "C35", "title": "GRAPH files: numbering is inferred and page-multiple files overrun", "statement": "When no number of the body is the single character 0 (in particular for files numbered from 1, and for 0-based files where vertex 0 is nobody's neighbour) the rows are stored shifted by one, after an empty row 0; with the usual header n() then leaves the last row out, so offsets()[n()] is m() minus the length of the last row; announcing one more row gives all of them. A file whose size is a multiple of the page size is always read past its mapping.", "quantifier": "every well-formed adjacency file, types, team size, interleaving", "why_tests_cant": "all files and all page sizes", "anchors": ["include/pigo/impl/csr.impl.hpp:read_graph_"]}
{"id": "C36", "title": "Tensor text read is exact", "statement": "Opening a Tensor on a text file whose data lines each hold k labels (any separators, comments, blank lines and trailing text allowed; the first data line plain: numbers separated so that each reads as one number, then only spaces or a comment) gives order() = k, m() = number of data lines, the coordinates equal to the labels of the lines in file order, and, for a weighted Tensor, the weights equal to the literals that follow the labels; for every team size and interleaving of the threads.", "quantifier": "every well-formed file (any number of lines, order, separators, comments), label/ordinal/weight types that fit, page sizes not dividing the file size, team sizes and interleavings", "why_tests_cant": "unbounded files and schedules", "anchors": ["include/pigo/impl/tensor.impl.hpp:read_el_", "include/pigo/impl/tensor.impl.hpp:read_coord_entry_i_", "include/pigo/impl/pigo.impl.hpp:FileReader::count_spaces_to_eol"]}
{"id": "C37", "title": "Where reading a tensor text file goes wrong", "statement": "The order of a tensor read from text is decided by its first data line alone: it is the number of numbers on that line (less one for a weighted tensor), whatever the other lines look like. Any text other than spaces and a comment after the last number of that line - a carriage return, a tab, a word - makes the order one too large, so a file with Windows line ends is never read with its real order (and what happens then depends on the number of threads: one thread pairs labels of different lines, four write out of bounds), and an exponent in the first weight has the same effect. If the last line has no newline: with one label per line it is silently dropped, with two or more labels directly at the end of the file some of its labels are stored past the end of the coordinate array, and with anything after the last label, or a weight at the end, the entry is stored. If the last line of an unweighted file does end with a newline but has fewer labels than the others, its labels are stored past the end of the coordinate array, on every team. A file whose size is a multiple of the page size is read past the mapping.", "quantifier": "every file of each family, label, ordinal and weight types, team sizes and interleavings", "why_tests_cant": "each claim ranges over an infinite family of files, over team sizes and interleavings, and several are about out-of-bounds accesses that a test may not notice", "anchors": ["include/pigo/impl/pigo.impl.hpp:FileReader::count_spaces_to_eol", "include/pigo/impl/tensor.impl.hpp:read_coord_entry_i_", "include/pigo/impl/tensor.impl.hpp:read_el_"]}
{"id": "C38", "title": "Tensor text write", "statement": "Tensor::write produces exactly one line per entry with all coordinates (and the weight) separated by single spaces; the announced size equals the bytes written, no two threads store to the same byte; reading the file back gives the same tensor (floating-point weights: the values of the written literals); a tensor without entries throws.", "quantifier": "every tensor, every team size and interleaving", "why_tests_cant": "schedules and sizes", "anchors": ["include/pigo/impl/tensor.impl.hpp:write"]}
{"id": "C39", "title": "The parallel search for a byte reports every occurrence but one at the very start", "statement": "find_offsets(c) on a reader positioned at p returns an order-1 tensor holding, in ascending order and relative to p, the position of every occurrence of the byte c after p; an occurrence at p itself is never reported. The result does not depend on the number of threads or on how their stores interleave, so it is exact precisely when the data does not begin with c. Searching for the null byte reports one position too many, the end of the file. When the size of the file is a multiple of the page size the search reads the byte after the mapping.", "quantifier": "every file, reader position, byte, label and ordinal type wide enough for the result, page size, team size and interleaving of the stores", "why_tests_cant": "Unboundedly many files and team sizes; the chunk boundaries move with both, and an off-by-one at a boundary shows only for particular combinations.", "anchors": ["include/pigo/impl/pigo.impl.hpp:FileReader::find_offsets", "include/pigo.hpp:FileReader::move_to"]}
{"id": "C40", "title": "File open, seek and bounds", "statement": "Opening for write with size 0 or an empty file for reading throws Error; seek accepts exactly the positions strictly below the size and otherwise throws, leaving the position unchanged; read/write of a value advances by its size.", "quantifier": "every size and position", "why_tests_cant": "all positions", "anchors": ["include/pigo/impl/pigo.impl.hpp:File::File", "include/pigo/impl/pigo.impl.hpp:File::seek"]}
{"id": "C41", "title": "Float formatting", "statement": "The announced size of a written floating-point value equals the bytes stored for it.", "quantifier": "every value", "why_tests_cant": "2^64 values", "anchors": ["include/pigo/impl/stb.impl.hpp", "include/pigo/impl/pigo.impl.hpp:write_ascii"]}
{"id": "C42", "title": "Float parsing", "statement": "Reading a floating-point literal [sign]digits[.digits][(e|E)[sign]digits] consumes exactly the literal and returns, when arithmetic is exact, the rational number it denotes.", "quantifier": "every literal", "why_tests_cant": "all literals", "anchors": ["include/pigo/impl/pigo.impl.hpp:FileReader::read_fp"]}
{"id": "C43", "title": "Readers on arbitrary bytes", "statement": "On every byte string (not only well-formed files) reading an unweighted edge list with unsigned labels terminates without out-of-bounds access for every team size, provided the file size is not a multiple of the page size. A COO constructed from any byte string as a Matrix Market file (any flags, label and ordinal types that are unsigned or narrower than int) is refused (NotYetImplemented, only without the banner; Error), or has m() elements and dimensions. When moreover the labels are unsigned and the last byte of the file is not a digit, every element is assigned: the COO holds exactly the entries of some list of pairs of labels (with the flags applied), which depends on the bytes, the types and the team size but not on the interleaving, with the dimensions of these entries (Matrix Market: those announced, and Error exactly if the entries contradict them); and the CSR, DiGraph or Matrix constructed from the same bytes without flags is the graph or matrix of the same pairs, unless n+1 is beyond the label type; for Matrix Market its number of vertices is the larger announced dimension, and these constructors throw Error exactly when that of the COO does. Memory safety also holds for a CSR constructed from any byte string as an adjacency (GRAPH) file whose last byte is not % or # (see C50), with label and ordinal types that are unsigned or narrower than int and can count the bytes times the number of threads: the constructor throws Error, or it returns an object with nrows()+1 offsets and m() endpoints and n() at most nrows(). More generally the constructors of COO, CSR, DiGraph and Tensor from a file end for every contents of the file, every file type given or detected, all flags, label/ordinal types, weights (none, unsigned, signed, floating point), team sizes and interleavings - they return, throw or access memory out of bounds, but do not loop - except for the adjacency format when the last byte of the file is % or # (see C50).", "quantifier": "every byte string, file type, type parameters, team size and interleaving", "why_tests_cant": "all byte strings", "anchors": ["include/pigo/impl/coo.impl.hpp:read_el_, read_mm_", "include/pigo/impl/csr.impl.hpp:read_graph_", "include/pigo/impl/pigo.impl.hpp:FileReader"]}
{"id": "C45", "title": "A COO with the largest possible n cannot be converted", "statement": "For a label type of at least 32 bits, converting a COO with n() equal to the largest label value (a file whose largest label is that value minus one) to a CSR is undefined behaviour: n+1 overflows and the offsets array is not allocated large enough.", "quantifier": "every COO with n() = max of the label type, every choice of team size and interleaving", "why_tests_cant": "needs labels at the type's limit; out-of-bounds stores are silent", "anchors": ["include/pigo/impl/csr.impl.hpp:allocate_", "include/pigo/impl/csr.impl.hpp:convert_coo_"]}
{"id": "C46", "title": "A COO cannot be built from the binary file of a CSR whose Ordinal is wider than Label", "statement": "Constructing a COO<Label,Ordinal,...> from a file saved by CSR<Label,Ordinal,...> writes past the end of an allocation (undefined behaviour) whenever sizeof(Ordinal) > sizeof(Label), although the header is accepted; with equal sizes the result is that of the in-memory conversion.", "quantifier": "every CSR content, every such pair of types, flags, team size and interleaving", "why_tests_cant": "the overrun is a silent heap corruption whose effect depends on the allocator; only a memory-safe semantics shows that it happens for every input", "anchors": ["include/pigo/impl/coo.impl.hpp COO::read_", "include/pigo/impl/csr.impl.hpp CSR::read_bin_", "include/pigo.hpp allocate_mem_"]}
{"id": "C47", "title": "Truncated binary files are not detected", "statement": "Loading a COO, CSR, DiGraph or Tensor file that was cut anywhere after its (last) header never throws. When the missing bytes do not all lie in the last page of the file, the constructor accesses memory outside the mapping (COO, CSR, Tensor). Otherwise it returns an object of the original dimensions and entry count in which the missing bytes count as zeros: elements stored completely before the cut are right, labels and offsets stored completely behind it are zero, and the element the cut goes through is decoded from its remaining bytes followed by zeros. A COO file cut inside its header: with at most 12 bytes left loading it is an error (unless the type is to be detected and not even five bytes are left); with more, nothing is detected: the numbers in the header lose their upper bytes, the number of entries becomes what is left of it (none when its first byte is missing), and the load returns that many entries, all zero, if they would lie in the last page, and accesses memory outside the mapping otherwise. The same for a CSR file, where the number of vertices is shortened, too, and all offsets and endpoints are zero. The same for a Tensor file, with an error for at most 14 bytes (15 in a weighted file): its order is shortened, too, and all labels are zero. A DiGraph file that ends exactly behind its first CSR, or at most four bytes later, loads without an error: the incoming edges are right, and the outgoing ones a CSR of one vertex without edges (what is left is taken for a text file, unless the file is called *.mtx or *.graph); with 5 to 12 bytes left it is an error, and with more, but not the whole header of the second CSR, the outgoing edges are those of a CSR file cut inside its header. A DiGraph file cut inside the arrays of its first CSR: memory outside the mapping is accessed when these arrays do not end in the last page, or when more than one thread reads; otherwise the load succeeds, the incoming edges are those of a CSR file with this cut, and the outgoing ones a CSR of one vertex without edges.", "quantifier": "every saved object, every cut after the header, every page size, team size and interleaving", "why_tests_cant": "whether a test sees a crash or silent zeros depends on the file size modulo the page size and on the neighbouring mappings", "anchors": ["include/pigo/impl/pigo.impl.hpp File::parallel_read", "include/pigo/impl/coo.impl.hpp read_bin_", "include/pigo/impl/csr.impl.hpp read_bin_", "include/pigo/impl/tensor.impl.hpp read_bin_"]}
{"id": "C48", "title": "Tensor label count overflows the Ordinal type", "statement": "Loading a binary Tensor whose order times m exceeds the largest Ordinal (of at least 32 bits) is undefined behaviour: the allocation is sized modulo the type while the transfer is not.", "quantifier": "every such header, whatever the rest of the file", "why_tests_cant": "needs files with more than 2^31 labels; the theorem covers all of them symbolically", "anchors": ["include/pigo/impl/tensor.impl.hpp allocate_, read_bin_"]}
{"id": "C49", "title": "Largest labels of a tensor", "statement": "Tensor::max_labels returns one number per mode: the largest label of that mode over all entries, 0 if there is none, for every team size and every distribution of the entries over the threads.", "quantifier": "every tensor, every distribution of the iterations", "why_tests_cant": "unbounded tensors and all schedules", "anchors": ["include/pigo/impl/tensor.impl.hpp:max_labels"]}
{"id": "C50", "title": "An adjacency file that ends with the first character of a comment is read forever", "statement": "If the last byte of a GRAPH (adjacency) file is % or #, and the header is followed by at least one number, then the constructors of CSR, COO and DiGraph from that file never return, for every team size and interleaving: the counting loop of the thread that owns the end of the file makes no progress. On every other file (arbitrary bytes) the adjacency reader ends (C43).", "quantifier": "every file with a header, at least one number after it and a last byte % or #; every team size, type parameters and interleaving", "why_tests_cant": "a test cannot show that a loop never ends; all files and team sizes", "anchors": ["include/pigo/impl/pigo.impl.hpp:move_to_next_int_or_nl", "include/pigo/impl/csr.impl.hpp:read_graph_"]}
{"id": "C51", "title": "A COO built from a CSR with vector weights reads freed storage", "statement": "Constructing a COO from any weighted CSR that has at least one entry and keeps its weights in a std::vector reads the weights from a temporary vector that has already been destroyed (undefined behaviour), whatever the storage of the COO and the order of the rows. For raw and shared pointers, and for vectors without weights, every access is to live storage, the COO holds the entries of the rows, and the CSR's storage (including reference counts) is unchanged.", "quantifier": "all CSR contents, all storage kinds of source and target, all orders of the parallel row loop", "why_tests_cant": "use of freed memory often returns the old values, so a test passes; that it happens for every such CSR and for no other needs a proof about lifetimes", "anchors": ["include/pigo/impl/coo.impl.hpp:67-129"]}
{"id": "C52", "title": "A File can be moved and its mapping is released exactly once", "statement": "For every program that opens files, seeks, reads, move-assigns one File variable to another (including to itself and from a File moved away) and destroys them, in any order and wherever the kernel places the mappings: every read sees exactly the bytes of the file that variable holds at its position, and once no variable holds a file nothing remains mapped. What move assignment does not do is also fixed: the target has no usable position before the next seek and keeps the name of its old file, so the type of the moved file is guessed from a file that is no longer open. The move constructor does not transfer ownership: after the source is destroyed the new File has no readable file, if the address was reused destroying the new File unmaps the other file, and its name is lost so that a text file is never recognised as Matrix Market or GRAPH.", "quantifier": "all sequences of open, seek, read, move assignment and destruction over any number of File variables, all file contents and names, all placements of mappings by the kernel", "why_tests_cant": "The damage depends on the order of moves and destructions and on which address the kernel hands out next; a test sees one placement, and reading an unmapped page or unmapping another file may go unnoticed.", "anchors": ["include/pigo.hpp: File::File(File&&)", "include/pigo/impl/pigo.impl.hpp: File::~File, File::operator=(File&&), File::seek, File::guess_file_type"]}
{"id": "C53", "title": "Adjacency files whose first vertices have no neighbours are rejected or misnumbered", "statement": "The adjacency reader skips the empty lines between the header and the first number, although they are rows of vertices without neighbours. So for a GRAPH file without comment lines there and with an honest header (n = number of lines after the header): if it numbers vertices from 0 and the first line is empty, or numbers them from 1 and the first two lines are empty, constructing a CSR throws Error; if it numbers them from 1 and exactly the first line is empty, it is accepted and line i becomes row i-1, whereas without the empty line (C35) line i becomes row i - the labels are stored unchanged in both cases, so rows and labels no longer use the same numbering.", "quantifier": "all well-formed adjacency files whose first line after the header is empty, all label and ordinal types they fit, all team sizes and interleavings", "why_tests_cant": "The outcome depends on which vertices happen to be isolated and on whether any label is 0; a test graph whose first vertex has a neighbour never shows it.", "anchors": ["include/pigo/impl/csr.impl.hpp: CSR::read_graph_", "include/pigo/impl/pigo.impl.hpp: FileReader::move_to_next_int"]}
{"id": "C54", "title": "Comments in the body of an adjacency file", "statement": "A CSR constructed from a GRAPH file whose comments contain no digit and do not touch a number: a comment at the end of a line of numbers changes nothing (with an honest header, the rows are exactly the file's rows); but one or more comment lines after a line without a comment of its own are stored as one more, empty, row. With an honest header such a file is accepted, and every row after the comment lines is stored one place too late, the last one behind n(). In general the stored rows are the file's rows with those empty rows inserted (and an empty row 0 if no number is 0, cf. C35), and the file is rejected with Error iff the header's counts disagree with them.", "quantifier": "all adjacency files of lines of numbers with comments (at line ends and on lines of their own), all label/ordinal types they fit, page sizes not dividing the size, team sizes and interleavings", "why_tests_cant": "unbounded files, splits inside comments, schedules; the shift shows only with a comment line between rows", "anchors": ["include/pigo/impl/csr.impl.hpp: CSR::read_graph_", "include/pigo/impl/pigo.impl.hpp: FileReader::move_to_next_int_or_nl", "include/pigo/impl/pigo.impl.hpp: FileReader::skip_comments"]}
{"id": "C55", "title": "Adjacency files whose last line is not terminated", "statement": "A GRAPH file with an honest header whose last line holds a number but is not ended by a newline: if it numbers vertices from 0 it is rejected with Error; if it numbers them from 1 it is accepted, n() and m() are the announced numbers of rows and entries, but the labels of the last line are never stored (those elements of endpoints() stay indeterminate) and offsets()[n()] is m() minus their number.", "quantifier": "all comment-free adjacency files with at least two lines whose last line is not terminated, all label/ordinal types they fit, page sizes not dividing the size, team sizes and interleavings", "why_tests_cant": "all files, types, splits and schedules", "anchors": ["include/pigo/impl/csr.impl.hpp: CSR::read_graph_"]}
{"id": "C56", "title": "Accuracy of float and double weights", "statement": "A weight read as double: an integer literal of magnitude at most 2^53 (2^24 for float) is read exactly; a fraction without integer part (up to 22 decimals, digits at most 2^53) and an integer with an exponent 0..22 are read as the nearest double; any literal with parts of at most 2^53, at most 22 decimals and an exponent of magnitude at most 280 is read with a relative error of at most 2^-50. Decimals with an integer part (1.14), negative exponents (3e-1) and large integers read as float (167798355) are not always read as the nearest value.", "quantifier": "all literals of these forms, all positions in a file, every pow implementation with the stated accuracy", "why_tests_cant": "the rounding error depends on the digits; there are about 2^64 doubles and unboundedly many literals", "anchors": ["include/pigo/impl/pigo.impl.hpp: FileReader::read_fp"]}
{"id": "C57", "title": "No data races, with two exceptions", "statement": "Between two barriers of a parallel section no two threads access the same array element with at least one of them writing, unless both accesses are atomic: this holds for converting a COO to a CSR (all six barrier intervals, including the atomic counting and the atomic capture of slots), for sort(), for new_csr_without_dups() (all six intervals), for filling the arrays from an edge list (weighted: when the flags drop no entry), for filling a tensor from text, for find_offsets, for the parallel copies of saving and loading binary files, for converting a CSR to a COO and for the filling pass of the GRAPH reader. The exceptions: (1) the GRAPH reader's flags have_zeros are bits of shared words (std::vector<bool>), and threads of the same word that both find a zero race (the result is right nevertheless if the word accesses are not torn); (2) a weighted edge list read whose flags drop an entry, but not the last one: with a thread per byte of the file, every interleaving has two threads writing the same weight (C02 says what can result). The logs the statement is about are complete: no action reads or writes a shared cell without logging it (what an action does depends only on the cells logged as read and on its thread's private variables, and only cells logged as written change).", "quantifier": "all inputs, team sizes, distributions of the loop iterations over the threads, choices of the thread executing a single block, and interleavings", "why_tests_cant": "A race shows up only under particular interleavings and compilers; tests and even race detectors see the schedules that happen to occur.", "anchors": ["include/pigo/impl/csr.impl.hpp: convert_coo_, sort, new_csr_without_dups, read_graph_", "include/pigo/impl/coo.impl.hpp: read_el_, convert_csr_"]}
{"id": "C58", "title": "Text of float and double weights", "statement": "A finite double weight is written as [-]digits.dddddd (six decimals, at most 318 characters, the announced size and the advance are the length of the text) and the text differs from the weight by at most half a millionth plus 1.02*10^-17 of the weight. Multiples of 1/64 below 2^40 in magnitude and integers below 2^60 are written exactly, and a COO with such double weights (integers below 2^53), or float weights that are multiples of 1/64 up to 2^24, is read back from its text file with identical weights, for every team writing and reading; other doubles up to 2^52 come back with an error of at most 0.501 millionths plus a relative error of 2^-49; the same holds for the values of tensors of any order. Not guaranteed: weights below 0.4999 millionths become zero; the decimal written is not always the nearest one; infinities and NaN are written as words and the file is then read back wrongly (the next line is lost, an array element stays uninitialised).", "quantifier": "all doubles and floats (sign, exponent and mantissa), all COOs with such weights, all team sizes, distributions and interleavings, all buffer addresses", "why_tests_cant": "the digits come from double-double arithmetic with hand-made tables of powers of ten and their errors; the error depends on each of the 2^64 bit patterns", "anchors": ["include/pigo/impl/stb.impl.hpp: stbsp__real_to_str, stbsp__raise_to_power10, stbsp_to_chars", "include/pigo/impl/pigo.impl.hpp: write_size, write_ascii, FileReader::read_fp", "include/pigo/impl/coo.impl.hpp: COO::write, read_el_", "include/pigo/impl/tensor.impl.hpp Tensor::write, Tensor::read_"]}
{"id": "C59", "title": "From a text file to a graph", "statement": "Constructing a CSR or DiGraph by file name from an edge list or Matrix Market file gives the graph written in it: n is one more than the largest label (for Matrix Market one more than the larger announced dimension), m the number of data lines, neighbors(u) are exactly the second labels of the lines with first label u (with their multiplicity, and with their weights), degree(u) is their number; the in-graph of a DiGraph has the first labels of the lines with second label v. A DiGraph read from an adjacency file has row u of the file as the neighbours of u, and as in-neighbours of v the rows that list v. Removing duplicates afterwards gives strictly ascending neighbours, v in row u iff a line 'u v' exists. A COO read with the symmetric flag and converted to a CSR has v in row u as often as u in row v: once for each line 'u v' and each line 'v u' (a self loop once per line, or never when self loops are removed).", "quantifier": "all well-formed files, label and ordinal types that hold the numbers, weight types, file names and types, team sizes, distributions of iterations and interleavings in every parallel region of the pipeline", "why_tests_cant": "the claim spans detection, parallel parsing, dimension computation and the atomic scatter of the conversion for every file and every schedule", "anchors": ["include/pigo/impl/csr.impl.hpp: CSR(fn), read_, convert_coo_, new_csr_without_dups", "include/pigo/impl/coo.impl.hpp: COO(fn), read_, read_el_, read_mm_", "include/pigo/impl/graph.impl.hpp: DiGraph(fn), read_", "include/pigo/graph.hpp: neighbors, degree"]}
{"id": "C60", "title": "A weighted read of an edge list that has no weights", "statement": "Constructing a weighted COO (integer or floating weights) from an edge list whose lines hold two labels and nothing else neither fails nor stores the edges. The call returns normally with m equal to the number of lines, but the lines of each thread's part are consumed in pairs: the first line of a pair is stored, with the first label of the second line as its weight, and the second line is not stored. If the part has an odd number of lines, its last line is not stored either, except that a weight 0 is written for it. All remaining cells that were reserved for the thread's lines are never assigned. With one thread this means that entry i is line 2i with the first label of line 2i+1 as weight and that the last half of x and y is uninitialised; with at least as many threads as bytes no label at all is stored and nrows and ncols are 1. The result therefore depends on the number of threads as soon as the file has two lines, but not on the schedule.", "quantifier": "for every edge list of two-label lines (any blanks between and after the labels, any blank lines, comments at the head), every label and ordinal type the labels and the number of lines fit, every weight type (unsigned, signed, float, double) that holds the labels, every number of threads and every schedule", "why_tests_cant": "Which half of the entries is lost depends on where the byte ranges of the threads fall, on every file and every team size; a test sees one machine's team, and the uninitialised cells may happen to hold plausible values.", "anchors": ["include/pigo/impl/coo.impl.hpp: COO::read_coord_entry_i_::op_ (weighted), COO::read_el_", "include/pigo/impl/pigo.impl.hpp: FileReader::move_to_next_int, FileReader::move_to_next_signed_int, FileReader::move_to_fp"]}
{"id": "C61", "title": "Opening a binary file with another weight parameter", "statement": "COO and CSR files record sizeof(Label) and sizeof(Ordinal) but not whether, nor with what size, weights were saved. Constructing a COO (CSR) from a file saved by a COO (CSR) with other weights never throws: an unweighted object gets the same graph without weights; a weighted object gets the same graph whose weights are the bytes after the labels, reinterpreted, followed by zero bytes up to the end of the last page, and the behaviour is undefined exactly if the weights expected reach beyond that page. A weighted DiGraph file opened as an unweighted DiGraph gets the right in-edges, but the rest of the file from the weights of the in-edges on is parsed as the text of an edge list, without an error, unless it begins with PIGO. A Tensor file records the size of the weights: another size is rejected with Error; an unweighted tensor opened as weighted is rejected unless the low byte of its order equals the size of a weight; a weighted tensor opened as unweighted is read one byte off, which is undefined behaviour for every non-empty tensor.", "quantifier": "for every saved object, every pair of weight parameters, every file name, page size, team sizes and interleavings of the save and of the load", "why_tests_cant": "Whether the mismatch goes unnoticed, reads zeros or crashes depends on the number of entries, on the weight bytes and on the page size; the round-trip tests use the same parameters on both sides.", "anchors": ["include/pigo/impl/coo.impl.hpp: COO::save, COO::read_bin_", "include/pigo/impl/csr.impl.hpp: CSR::save, CSR::read_bin_, CSR::read_", "include/pigo/impl/graph.impl.hpp: DiGraph::read_", "include/pigo/impl/tensor.impl.hpp: Tensor::save, Tensor::read_bin_", "include/pigo/impl/pigo.impl.hpp: File::guess_file_type, parallel_read"]}
{"id": "C62", "title": "A comment that touches a number in an adjacency file", "statement": "In an adjacency (GRAPH) file a line may end with a comment. If the comment starts immediately after a digit (as in '2 3#note'), the reader stores one more, empty, row after that line, without counting it in the number of rows. With one thread: the first so many rows of the sequence with these extra rows, as the file has lines, reach the arrays (after an empty row 0 if no number is written 0); m() still counts every number of the file, and as many endpoints at the end of the array as there are numbers in the rows that did not fit are never assigned; the file is accepted if and only if its header agrees with all its numbers. So if such a comment occurs before the last line and the last line has a number, the file is accepted, the last offset is less than m() and the last endpoint is uninitialised. If no comment touches a number the arrays are exactly the rows written, whatever the comments contain. With more threads the result can be different, can depend on the interleaving, and the file can be rejected.", "quantifier": "for every adjacency file made of lines with optional trailing comments (any contents), every header, label and ordinal type in which it fits, page size and file name, team of one thread", "why_tests_cant": "The effect depends on the byte before the comment on each line; the loss is silent, and with several threads it depends on where the chunks of the file begin.", "anchors": ["include/pigo/impl/csr.impl.hpp: CSR::read_graph_", "include/pigo/impl/pigo.impl.hpp: FileReader::at_nl_or_eol, FileReader::move_to_next_int_or_nl, FileReader::skip_comments"]}
{"id": "C63", "title": "What constructors from files leave behind in memory", "statement": "A COO constructor that reads a file of any format and returns holds exactly its two or three arrays of m() elements; every other array allocated on the way (the CSR it may go through) has been given back, and no array that existed before the call is touched. The same holds for a CSR constructor, except that arrays without elements (of the COO it goes through) may stay behind. A COO or CSR constructor that throws on an edge list, Matrix Market file or binary COO leaves nothing with elements behind; with vectors or shared pointers a throwing COO constructor leaves nothing behind whatever the file. But on raw pointers the arrays are lost for good when an adjacency file contradicts its header (the constructor throws after filling endpoints and offsets and the caller never gets an object to free), when a self-loop-dropping or one-triangle COO type is constructed from an adjacency file (refused only after the whole CSR was read), and when the second graph of a binary DiGraph cannot be read (the first graph is lost).", "quantifier": "all file contents, file types, flags, label/ordinal/weight types, kinds of storage, thread counts and schedules, and all heaps before the call", "why_tests_cant": "leaks do not change any result; which arrays are left depends on where in which input the constructor throws and on the storage template arguments, an unbounded combination", "anchors": ["include/pigo/impl/coo.impl.hpp: COO::read_, read_mm_, convert_csr_, allocate_", "include/pigo/impl/csr.impl.hpp: CSR::read_, read_graph_, read_bin_, allocate_", "include/pigo/impl/graph.impl.hpp: DiGraph::read_", "include/pigo/coo.hpp: COO::free", "include/pigo/csr.hpp: CSR::free", "include/pigo.hpp: detail::allocate_mem_, free_mem_"]}
{"id": "C64", "title": "The cursor operations of FileReader", "statement": "From any position of any range of any text, move_to_eol, move_to_non_int, move_to_fp, move_to_non_fp, move_to(c) and skip_comments move forward to exactly the first place their documentation names, or to the end of the range, and never past it; move_to(c) leaves the position it starts from even if that is c. at_end_of_line is true exactly when only spaces and carriage returns precede the next newline or the end; peek, at_nl_or_eol and at_str look at the current byte or text only within the range (at_str wants one byte more than the string). move_to_first_int, move_to_next_int and move_to_next_signed_int stop at the first number that is not in a comment; move_to_next_int_or_nl stops at the next number or newline and, when a comment is in the way, on the last byte of the last comment line; read_sign and at_zero report the sign and an isolated zero without moving. Those six look at the byte under the cursor before comparing it with the end, so they need a readable byte at the end of the range and are undefined at the end of a file whose size is a multiple of the page size; the others are defined there.", "quantifier": "all byte sequences, page sizes, range ends and cursor positions, search characters and strings", "why_tests_cant": "the tests place a cursor in one ten-line file; every position, every range end and every comment layout, and the page-multiple end, cannot be enumerated", "anchors": ["include/pigo.hpp:FileReader", "include/pigo/impl/pigo.impl.hpp:FileReader::move_to_first_int", "include/pigo/impl/pigo.impl.hpp:FileReader::move_to_next_int_or_nl", "include/pigo/impl/pigo.impl.hpp:FileReader::at_end_of_line", "include/pigo/impl/pigo.impl.hpp:FileReader::skip_comments"]}
{"id": "C65", "title": "Conversions between template types", "statement": "A CSR may be constructed from a COO, and a COO from a CSR, with other label, ordinal and weight types. When every label and size fits the new types the result is exactly the one the conversion with equal types gives, every weight replaced by its conversion, and a round trip through other types gives back the same entries; likewise for both directions of a DiGraph built from such a COO. Otherwise nothing is reported: n, m, nrows, ncols and every label are reduced modulo 2^bits of the new type. So with n = 258 and 8-bit labels the graph has two vertices; an entry whose reduced source is not below the reduced n is undefined behaviour, and the entries beyond the reduced m are not copied; a negative reduced size ends in an exception; a COO built from a CSR with more rows than its label type holds has only the first rows and indeterminate cells beyond them, and one with more entries than its ordinal type holds writes outside its arrays.", "quantifier": "all COOs and CSRs, all pairs of label, ordinal and weight types, all weight conversions, flags, team sizes, distributions and interleavings", "why_tests_cant": "the tests convert between a few matching types; the behaviour at every width boundary and every schedule cannot be enumerated", "anchors": ["include/pigo/impl/csr.impl.hpp: CSR(COO), convert_coo_, copy_weight", "include/pigo/impl/coo.impl.hpp: COO(CSR), convert_csr_", "include/pigo.hpp: get_value_", "include/pigo/graph.hpp: DiGraph(COO)"]}
{"id": "C66", "title": "A Matrix read from a file", "statement": "Constructing a Matrix by file name from an edge list or Matrix Market file gives the matrix written in it, with or without weights: row u of csr() holds the columns of the entries in row u, row v of csc() the rows of the entries in column v, with their multiplicities and weights; nrows() and ncols() are one more than the largest row and column (for Matrix Market one more than the announced dimensions), converted to the ordinal type; csc() reports the same two numbers unswapped. Read from a .graph file or a saved CSR the dimensions are indeterminate; a saved DiGraph or Tensor is rejected with NotYetImplemented.", "quantifier": "all well-formed files, label, ordinal and weight types that hold the numbers, file names, team sizes, distributions of iterations and interleavings", "why_tests_cant": "spans detection, parallel parsing, the transposed copy and two atomic scatters for every file and every schedule", "anchors": ["include/pigo/matrix.hpp: Matrix(fn), from_coo_, nrows, ncols, csr, csc", "include/pigo/impl/coo.impl.hpp: COO(fn), transpose", "include/pigo/impl/csr.impl.hpp: convert_coo_"]}
{"id": "C67", "title": "A save that is interrupted leaves a file that is rejected or loads as the stored part", "statement": "Let a process be stopped after any number k of the byte stores of COO::save, CSR::save, DiGraph::save or Tensor::save (header fields one after the other, arrays in any interleaving of the threads). The file has its full length, and each byte is the final one or the one a new file has (zeros and a one at the end). With at least 4 and fewer than 13 bytes stored (15 for DiGraph and Tensor) loading it throws pigo::Error, with the type given or detected. Once the magic string and the size bytes are stored, a non-empty COO, any CSR and a non-empty Tensor load without undefined behaviour and with at most as many vertices and entries as the saved object. Once the header is stored every header field is right, and so is every array element whose bytes have been stored; the arrays are complete in the order of the file; after all stores the file is that of the finished save. The statements about loading also hold for every subset of the stored bytes that survives (for instance pages written back in any order). The interruption itself is not detected.", "quantifier": "every object with defined fields, label, ordinal and weight type, every number of stores, team size, interleaving, every surviving subset of the bytes, every page size", "why_tests_cant": "there is a crash point after every byte and every interleaving of the threads that copy the arrays; tests cannot stop a process at each of them", "anchors": ["include/pigo/impl/pigo.impl.hpp File::open_", "include/pigo/impl/pigo.impl.hpp File::write", "include/pigo/impl/pigo.impl.hpp File::parallel_write", "include/pigo/impl/coo.impl.hpp COO::save", "include/pigo/impl/csr.impl.hpp CSR::save", "include/pigo/impl/graph.impl.hpp DiGraph::save", "include/pigo/impl/tensor.impl.hpp Tensor::save"]}
{"id": "C68", "title": "A text write that is interrupted leaves the finished lines, or anything", "statement": "Let a process be stopped while COO::write or Tensor::write is running, each thread after any number of its byte stores. The file has the length of the complete text, and each byte is the one of the complete text or has not been stored (zero, or one at the end of the file; zero also directly behind a floating-point number). After any number of stores of any interleaving the file is one of these, and when every thread has made all its stores it is the finished file. If every thread is between two entries, opening the file (as an edge list, or by a name that is not of another format) yields exactly the entries the threads have finished, with their weights, in the order of the file; for a tensor at least one entry must be finished. If a thread is within an entry the file loads too, for unsigned labels, as some list of pairs of labels that does not depend on the interleaving: neither need these entries be in the COO, nor need the finished entries be among them. The interruption is not detected.", "quantifier": "every COO and tensor (label, ordinal and integer or floating-point weight type), distribution of the entries over the threads, number of stores of each thread, interleaving, page size and reading team", "why_tests_cant": "there is a crash point after every byte of every thread, in every interleaving", "anchors": ["include/pigo/impl/coo.impl.hpp COO::write", "include/pigo/impl/tensor.impl.hpp Tensor::write", "include/pigo/impl/pigo.impl.hpp write_ascii", "include/pigo/impl/pigo.impl.hpp File::open_"]}
{"id": "C69", "title": "Chains of conversions keep the graph or tensor", "statement": "Let an edge list be loaded, stored in a binary file, loaded again, turned from one class into another, written as text and loaded again. (a) As a COO: the COO loaded from the binary file is the one loaded from the text, the text it writes lists the entries of the file in their order, and loading that text gives the same COO again (with floating-point weights: the same entries, with the weights as read back from six decimals). (b) As a CSR: the CSR loaded from the binary file is the first one; the COO made of it and the text that COO writes list the lines of the first file grouped by first label; the CSR loaded from that text answers neighbour, degree and weight queries as the first one, and both as the lines of the file say (the order of the neighbours of a vertex is not kept). (c) As a DiGraph: the same for the out- and the in-neighbours. (d) The binary file of a COO, loaded as a CSR or a DiGraph, gives the graph of the edge list. (e) The same as (a) for a Tensor and a tensor file whose first data line is plain (C36). (f) A Matrix Market file with an honest header loaded as a COO: the binary file gives the same COO, its dimensions, one more than the announced ones, included; the text it writes gives the same entries, but dimensions one more than the largest labels. (g) A GRAPH file numbering vertices from 0 with the right header, loaded as a CSR: the binary file gives the same CSR, all announced vertices and the order of the lists of neighbours included; the text lists the arcs in the order of the rows, and the CSR loaded from it has the same neighbours but only as many vertices as its largest label asks for.", "quantifier": "every well-formed edge list with at least one entry whose labels leave two values of the label type unused, every label and ordinal type, no weights or integer or floating-point weights, every page size that does not divide the size of a text file, every team size, distribution of the iterations and interleaving in each of the steps, asked-for or detected file types", "why_tests_cant": "each step has its own team size, distribution and interleaving, and the composition must hold for every file and every combination", "anchors": ["include/pigo/impl/coo.impl.hpp COO::read_, save, write", "include/pigo/impl/csr.impl.hpp CSR::read_, save, convert_coo_", "include/pigo/impl/coo.impl.hpp convert_csr_", "include/pigo/impl/graph.impl.hpp DiGraph::read_, save", "include/pigo/impl/tensor.impl.hpp Tensor::read_, save, write"]}
{"id": "C70", "title": "The largest label of the label type", "statement": "Let an edge list be well-formed and let its labels fit the label type, the largest value of the type included (C01 asks for labels strictly below it). (a) With an unsigned label type, or a signed one of 8 or 16 bits, the read succeeds and the COO holds all entries (and weights) the flags select, in file order; but the number of rows (columns) it reports is the least value of the type - 0 for unsigned labels - if the largest first (second) label is the largest value of the type, and one more than the largest label otherwise; n() is the larger of the two. (b) With int32_t or int64_t labels the read has undefined behaviour (signed overflow) when an entry that is counted holds the largest value. (c) With an unsigned label type and no label one below the largest value (for those see C45), building a CSR from the file is undefined if a first label is the largest value, and building a DiGraph is undefined if any label is: the offsets are indexed out of bounds. (d) A Matrix Market file that announces as many rows or columns as the largest value of the label type is refused with an Error whatever its entries are (int32_t, int64_t: undefined), although all labels fit.", "quantifier": "every well-formed edge list and Matrix Market file, every label and ordinal type, every combination of the flags, no weights or weights of any kind, every page size that does not divide the file size, every team size, schedule and interleaving, asked-for or detected file types", "why_tests_cant": "the boundary has to be checked for each of the eight label types and every file; whether an out-of-bounds write or a signed overflow is noticed at run time depends on the allocator and the compiler", "anchors": ["include/pigo/impl/coo.impl.hpp COO::read_el_ (nrows_ = max_row + 1, ncols_ = max_col + 1)", "include/pigo/impl/coo.impl.hpp COO::read_mm_ (nrows = r.read_int<L>()+1)", "include/pigo/impl/csr.impl.hpp CSR::convert_coo_", "include/pigo/impl/graph.impl.hpp DiGraph"]}
{"id": "C71", "title": "A DiGraph or Matrix from a one-based adjacency file", "statement": "Let a METIS-style adjacency file be well-formed with a consistent header, and let its body make more rows than the header announces; this is so for every file whose vertices are numbered from 1 and whose first line gives the right number of vertices, since the reader adds an empty row for vertex 0 (C35). (a) A COO can be built from the file; it reports as many entries as the body has, but only the entries of the announced number of rows are in it: the remaining cells, as many as the other rows have entries, are never written and stay indeterminate at the end of both coordinate arrays. (b) If the other rows are not all empty, building a DiGraph from the file is undefined behaviour, and so is building a Matrix: the coordinates nobody wrote are used as indices. (c) In the case of (b) writing the COO as an edge list is undefined, too. (d) In particular (a) and (b) hold for the usual one-based file unless the last vertex has no neighbours. (e) The CSR built from such a file (C35) can be saved and loaded: the result has the offsets of the announced rows only, and n(), m(), all endpoints and the dimensions unchanged.", "quantifier": "every well-formed adjacency file with a consistent header, every announced number of rows, every label and ordinal type the file fits, every page size that does not divide the file size, every team size, schedule and interleaving, asked-for or detected file type", "why_tests_cant": "the memory nobody wrote comes from malloc and often happens to be zero, in which case a test sees a plausible graph; only an argument over all files and schedules shows which cells are never written", "anchors": ["include/pigo/impl/csr.impl.hpp CSR::read_graph_ (else n_ = read_n), CSR::save, CSR::read_bin_", "include/pigo/impl/coo.impl.hpp COO::convert_csr_, COO::read_ (GRAPH), COO::write", "include/pigo/graph.hpp DiGraph::from_coo_", "include/pigo/matrix.hpp Matrix::from_coo_", "include/pigo/impl/csr.impl.hpp CSR::convert_coo_"]}
