{"id": "C01", "title": "Calculations are numbered 0..n-1 without gaps or repeats", "statement": "Start a ParameterStudy with no database and make any sequence of write_input() calls (append or write mode, any parameter lists, any machines, any extra keys in the parameter sets, calls that raise, calls killed at any point). In the database on disk the idx column always reads 0,1,...,n-1 in row order, so no two rows ever share an idx and none is skipped.", "quantifier": "all finite histories of write_input calls, complete, failing or killed at any step, with any parameters, machines and set-iteration order", "why_tests_cant": "A test runs a few fixed histories; the claim is about every history, including repeated, mixed and failing calls. Crash points and the arbitrary iteration order of a Python set cannot be enumerated.", "anchors": ["src/pwtools/batch.py:ParameterStudy.write_input", "src/pwtools/sql.py:SQLiteDB"]}
{"id": "C02", "title": "Revisions count the appends", "statement": "Along the rows of the database the revision never decreases; the rows written by one successful append all carry the same revision, which is exactly one more than the largest revision before the call; after a call in write mode all rows have revision 0.", "quantifier": "all histories of write_input calls as in C01", "why_tests_cant": "A test runs a few fixed histories; the claim is about every history, including repeated, mixed and failing calls.", "anchors": ["src/pwtools/batch.py:ParameterStudy.write_input"]}
{"id": "C03", "title": "Appending never changes existing rows", "statement": "write_input(mode='a') leaves every value of every existing database row unchanged and adds exactly one row per parameter set at the end, also when the new parameter sets bring new columns, when the call raises, and when the process dies in the middle.", "quantifier": "all databases, all parameter lists, all crash points", "why_tests_cant": "Crash points and arbitrary database contents cannot be enumerated by tests.", "anchors": ["src/pwtools/batch.py:ParameterStudy.write_input", "src/pwtools/sql.py:SQLiteDB.add_column"]}
{"id": "C04", "title": "Appending never touches old calculation directories", "statement": "write_input(mode='a') never creates, changes or removes a file in a calculation directory <prefix>_<host>/<idx> whose idx is already in the database, at whatever point the call stops.", "quantifier": "all file trees, all parameter lists and templates, all crash points", "why_tests_cant": "The claim is about every file tree and every crash point.", "anchors": ["src/pwtools/batch.py:ParameterStudy.write_input", "src/pwtools/batch.py:Calculation.write_input"]}
{"id": "C05", "title": "backup() never overwrites and always copies", "statement": "common.backup(src) creates exactly one new entry, named src + prefix + n for the smallest non-negative n that is free, with the content of src, and changes nothing else; after any sequence of changes and backups every backed-up content is still there under its own name.", "quantifier": "all file trees and all sequences of backup calls interleaved with changes to the source", "why_tests_cant": "A test runs a few fixed histories; the claim is about every history, including repeated, mixed and failing calls.", "anchors": ["src/pwtools/common.py:backup"]}
{"id": "C06", "title": "With backup=True no content is lost", "statement": "write_input(backup=True), in either mode, leaves a copy of the former database file and of each former calculation directory under a fresh name, and leaves every earlier backup unchanged.", "quantifier": "all file trees, both modes, all machine and parameter lists", "why_tests_cant": "A test runs a few fixed histories; the claim is about every history, including repeated, mixed and failing calls.", "anchors": ["src/pwtools/batch.py:ParameterStudy.write_input", "src/pwtools/common.py:backup"]}
{"id": "C07", "title": "Parameter sets cannot spoof the bookkeeping columns", "statement": "Whatever keys the user's parameter sets contain, including idx, revision, study_name, calc_name and hostname, the database columns of these names hold the study's own values; every other user key is stored with the user's last value for that key.", "quantifier": "all parameter sets (nested lists of entries with any keys, repeated keys included)", "why_tests_cant": "A test samples a few inputs; the claim must hold for every input of the stated shape, with no bound on size.", "anchors": ["src/pwtools/batch.py:ParameterStudy.write_input", "src/pwtools/batch.py:Calculation.__init__", "src/pwtools/common.py:flatten"]}
{"id": "C08", "title": "Database and input files describe the same calculations", "statement": "After a successful write_input, for every machine and every parameter set of that call, the directory <prefix>_<host>/<idx> holds every template file with the placeholders replaced by the values of exactly that parameter set (plus the bookkeeping values and the machine's values), where idx is the value stored in the row that holds this parameter set; all machines get the same set of directories.", "quantifier": "all parameter lists, machines, templates and initial file trees", "why_tests_cant": "A test samples a few inputs; the claim must hold for every input of the stated shape, with no bound on size.", "anchors": ["src/pwtools/batch.py:ParameterStudy.write_input", "src/pwtools/batch.py:Calculation.write_input", "src/pwtools/batch.py:FileTemplate.write"]}
{"id": "C09", "title": "run.sh starts the new calculations, excl_push lists the old ones", "statement": "After a successful append with excl=True and db_table='calc', run.sh of each machine enters exactly the directories created by that call, in order, and excl_push lists exactly the idx of all rows of earlier revisions; together they list every row once.", "quantifier": "all histories and parameter lists", "why_tests_cant": "A test runs a few fixed histories; the claim is about every history, including repeated, mixed and failing calls.", "anchors": ["src/pwtools/batch.py:ParameterStudy.write_input"]}
{"id": "C10", "title": "Failure modes of write_input that leave a half-written study", "statement": "An append with db_table other than 'calc' raises after the input files were written and after the rows were added (the query for excl_push names the table 'calc' literally); a process killed between table creation and commit leaves a database to which no later append succeeds; two parameter sets giving one key two types make the first write_input raise after the files were written.", "quantifier": "existential: concrete histories; and for the first, every append of an existing study whose table is not 'calc'", "why_tests_cant": "Needs a crash at one exact point, or a table name the tests never use.", "anchors": ["src/pwtools/batch.py:ParameterStudy.write_input"]}
{"id": "C11", "title": "add_column is idempotent and data-preserving", "statement": "SQLiteDB.add_column leaves every stored value unchanged, adds the column with NULL in every row when it is missing, and does nothing at all when it is present; add_columns does this for each entry.", "quantifier": "all tables, columns and sequences of calls", "why_tests_cant": "A test samples a few inputs; the claim must hold for every input of the stated shape, with no bound on size.", "anchors": ["src/pwtools/sql.py:SQLiteDB.add_column", "src/pwtools/sql.py:SQLiteDB.has_column"]}
{"id": "C12", "title": "fill_column writes exactly the requested cells", "statement": "On a non-empty table fill_column(col, values, start, extend, overwrite) changes only cells of col in rows start, start+1, ... and, with extend, appends rows that hold NULL in all other columns; without overwrite it never replaces a non-NULL value: it raises at the first such cell, with the earlier cells already written. On an empty table it writes nothing and raises (unless extend is on and there are no values). attach_column never changes another column of an existing row.", "quantifier": "all tables, value lists, start rows and flags", "why_tests_cant": "A test samples a few inputs; the claim must hold for every input of the stated shape, with no bound on size.", "anchors": ["src/pwtools/sql.py:SQLiteDB.fill_column", "src/pwtools/sql.py:SQLiteDB.attach_column"]}
{"id": "C13", "title": "get_dict transposes the result set", "statement": "For a select whose columns have distinct names, get_dict maps each column name to the list of its values in row order; for repeated names the lists are interleaved and longer than the number of rows.", "quantifier": "all result sets", "why_tests_cant": "A test samples a few inputs; the claim must hold for every input of the stated shape, with no bound on size.", "anchors": ["src/pwtools/sql.py:SQLiteDB.get_dict"]}
{"id": "C14", "title": "sql_column and sql_matrix keep values and columns aligned", "statement": "sql_column yields one entry per value, in order, with the requested key and file value; sql_matrix yields one row per input row and pairs the j-th value of a row with the j-th column of the header; rows (other than the first) shorter than the header silently lose the trailing columns, longer rows raise.", "quantifier": "all value lists and matrices", "why_tests_cant": "A test samples a few inputs; the claim must hold for every input of the stated shape, with no bound on size.", "anchors": ["src/pwtools/sql.py:sql_column", "src/pwtools/sql.py:sql_matrix"]}
{"id": "C15", "title": "Templates lists never leak between calculations", "statement": "ParameterStudy.write_input gives each calculation its own copy of the template list, so the job template of one machine is never written for another; a bare Calculation(machine=...) without a templates argument does leak its machine's template into every later Calculation created without one.", "quantifier": "all sequences of Calculation constructions", "why_tests_cant": "A test runs a few fixed histories; the claim is about every history, including repeated, mixed and failing calls.", "anchors": ["src/pwtools/batch.py:Calculation.__init__", "src/pwtools/batch.py:ParameterStudy.write_input"]}
{"id": "C16", "title": "template_replace equals simultaneous substitution when placeholders do not interfere", "statement": "In txt mode, if occurrences of different placeholders do not overlap in the text, no placeholder directly follows an incomplete beginning of another one and no value contains, or ends in a beginning of, another placeholder, then template_replace(txt, dct) replaces every occurrence of every placeholder by its value and nothing else, and the result does not depend on the order of the dict. Without that condition the result depends on the order and inserted text can be replaced again. It raises exactly if a placeholder found in the text has a non-string value and conv=False. file_template_replace changes only the file and its backup, and nothing on failure.", "quantifier": "all texts and dicts satisfying the stated condition; existential for the failure", "why_tests_cant": "A test samples a few inputs; the claim must hold for every input of the stated shape, with no bound on size. Order dependence needs all permutations.", "anchors": ["src/pwtools/common.py:template_replace", "src/pwtools/common.py:file_template_replace"]}
{"id": "C17", "title": "nested_loops enumerates the product once, last list fastest", "statement": "nested_loops(lists) returns exactly one tuple for each choice of one element per list, in lexicographic order with the last list varying fastest, so the n-th tuple is given by the mixed-radix digits of n; with flatten=True nested groups are spliced in place and nothing else changes.", "quantifier": "all lists of lists, any number and lengths", "why_tests_cant": "A test samples a few inputs; the claim must hold for every input of the stated shape, with no bound on size.", "anchors": ["src/pwtools/comb.py:nested_loops"]}
{"id": "C18", "title": "unique2d keeps the first occurrence of every row", "statement": "unique2d(arr, what='row') keeps, in order, exactly the first occurrence of each distinct row; the result has no repeated row and the same set of rows; applying it twice changes nothing. For what='col' the same holds for columns, i.e. the result is arr[:, idx] with idx the first occurrences. An array without rows is rejected.", "quantifier": "all 2d arrays with at least one row", "why_tests_cant": "A test samples a few inputs; the claim must hold for every input of the stated shape, with no bound on size.", "anchors": ["src/pwtools/comb.py:unique2d"]}
{"id": "C19", "title": "flatten returns the leaves in order", "statement": "common.flatten(seq) returns the non-sequence leaves of any nested sequence from left to right; flattening a flat list changes nothing; flatten distributes over concatenation. Strings are leaves, but bytes are taken apart into integers.", "quantifier": "all finitely nested sequences", "why_tests_cant": "A test samples a few inputs; the claim must hold for every input of the stated shape, with no bound on size.", "anchors": ["src/pwtools/common.py:flatten", "src/pwtools/common.py:iflatten", "src/pwtools/common.py:is_seq"]}
{"id": "C20", "title": "pop_from_list removes exactly the listed items", "statement": "pop_from_list(lst, items) returns lst without one occurrence per listed item, keeps the order of the rest, does not change its arguments, and raises exactly when an item is not there often enough.", "quantifier": "all lists and item lists", "why_tests_cant": "A test samples a few inputs; the claim must hold for every input of the stated shape, with no bound on size.", "anchors": ["src/pwtools/common.py:pop_from_list"]}
{"id": "C21", "title": "seq2str and str2seq are inverse", "statement": "str2seq(seq2str(seq, sep), sep) gives back the string forms of the items for every one-character separator not contained in an item and non-empty sequence, and with the default separators for non-empty items without whitespace. For longer separators it can fail although no item contains the separator.", "quantifier": "all sequences and separators meeting the condition", "why_tests_cant": "A test samples a few inputs; the claim must hold for every input of the stated shape, with no bound on size.", "anchors": ["src/pwtools/common.py:seq2str", "src/pwtools/common.py:str2seq"]}
{"id": "C22", "title": "set_all computes each attribute at most once and never overwrites", "statement": "For a FlexibleGetters object with acyclic dependencies between getters, set_all leaves every attribute that was set by the user untouched, sets every other attribute to the value its getter would give, and executes each getter that yields a value exactly once, whatever the order of attr_lst. Getters that yield None are executed again each time something asks for them.", "quantifier": "all acyclic dependency graphs, all initially set attributes, all orders of the attribute list", "why_tests_cant": "The number of dependency graphs and orders is unbounded.", "anchors": ["src/pwtools/base.py:FlexibleGetters"]}
{"id": "C23", "title": "Units are applied exactly once", "statement": "However often set_all, apply_units or the property accessors that call them are used, each quantity of a Structure or Trajectory is multiplied by its unit factor exactly once; an unknown unit name raises before any quantity is changed; a quantity that is None stays None.", "quantifier": "all sequences of calls, all unit dicts", "why_tests_cant": "A test runs a few fixed histories; the claim is about every history, including repeated, mixed and failing calls.", "anchors": ["src/pwtools/crys.py:UnitsHandler"]}
{"id": "C24", "title": "Class-level dictionaries shared by parsers and calculators leak state", "statement": "The unit factors a parser applies and the parameters a calculator uses depend on which other objects were created before: creating one Cp2kMDOutputFile makes every later Cp2kSCFOutputFile scale its stress by 1e-4; keywords given to one Pwscf or Lammps calculator become the defaults of all later ones. For parsers of other families the shared dictionaries never change the factor of a quantity the parser reads.", "quantifier": "all sequences of object creations", "why_tests_cant": "Order dependence over all creation histories cannot be sampled.", "anchors": ["src/pwtools/parse.py:Cp2kMDOutputFile.__init__", "src/pwtools/parse.py:StructureFileParser.__init__", "src/pwtools/calculators.py:CalculatorBase.init_params_from_input"]}
{"id": "C25", "title": "Trajectory slicing agrees with slicing every array", "statement": "tr[i] for every valid integer i (negative too) is a Structure holding step i of every time-dependent array and the shared values of all others; tr[a:b:s] is a Trajectory whose arrays are the slices of the arrays, with nstep their common length and timestep multiplied by s; slicing twice equals slicing once with the composed slice.", "quantifier": "all trajectories, all integer indices and all slices with positive step", "why_tests_cant": "A test samples a few inputs; the claim must hold for every input of the stated shape, with no bound on size.", "anchors": ["src/pwtools/crys.py:Trajectory.__getitem__"]}
{"id": "C26", "title": "Iterating a trajectory is correct only for one complete, un-nested loop at a time", "statement": "A complete for-loop over a Trajectory visits every step once in order and leaves the object ready for another loop; but after a loop left early the next loop continues in the middle, and two nested complete loops over the same object never terminate, because they share their position.", "quantifier": "all trajectories and all interleavings of next() calls of several loops", "why_tests_cant": "Interleavings of iterators are schedules; tests use a single complete loop.", "anchors": ["src/pwtools/crys.py:Trajectory.__iter__", "src/pwtools/crys.py:Trajectory.__next__"]}
{"id": "C27", "title": "concatenate joins the time axis", "statement": "For trajectories and structures that have the same attributes set, concatenate gives a trajectory with as many steps as the sum, whose step at the accumulated offset is the corresponding step of the corresponding object; attributes that are populated in only part of the objects are dropped, except that one set only in the first object is copied over unconcatenated, with the wrong length.", "quantifier": "all non-empty lists of structures and trajectories", "why_tests_cant": "A test samples a few inputs; the claim must hold for every input of the stated shape, with no bound on size.", "anchors": ["src/pwtools/crys.py:concatenate"]}
{"id": "C28", "title": "mix interpolates from the first to the second structure", "statement": "mix(st1, st2, alpha) returns a trajectory with one step per alpha; at alpha=0 coordinates and cell equal those of st1, at alpha=1 those of st2, and they are affine in alpha in between.", "quantifier": "all pairs of structures and all alpha lists", "why_tests_cant": "A test samples a few inputs; the claim must hold for every input of the stated shape, with no bound on size.", "anchors": ["src/pwtools/crys.py:mix"]}
{"id": "C29", "title": "Coordinate transformation round-trips", "statement": "coord_trans(coord_trans(x, old=A, new=B), old=B, new=A) = x for all invertible cells A, B; transforming A->B->C equals A->C; the Cartesian position is unchanged by the transformation; fractional to Cartesian is multiplication by the cell.", "quantifier": "all coordinates and all invertible 3x3 cells (real arithmetic)", "why_tests_cant": "A test samples a few inputs; the claim must hold for every input of the stated shape, with no bound on size.", "anchors": ["src/pwtools/crys.py:coord_trans", "src/pwtools/crys.py:_trans", "src/_ext_src/flib.f90:frac2cart"]}
{"id": "C30", "title": "Minimum image convention", "statement": "min_image_convention maps each fractional distance vector to one that differs by integers and has all components in [-0.5, 0.5); it is idempotent and invariant under integer shifts. For an orthogonal cell the Cartesian length of the result is the smallest over all integer shifts; for a skewed cell it can be larger than the smallest.", "quantifier": "all real distance vectors, all integer shifts, all orthogonal cells", "why_tests_cant": "A test samples a few inputs; the claim must hold for every input of the stated shape, with no bound on size.", "anchors": ["src/pwtools/crys.py:min_image_convention", "src/_ext_src/flib.f90:distsq_frac"]}
{"id": "C31", "title": "pbc_wrap_coords maps into the cell", "statement": "pbc_wrap_coords returns coordinates in [0,1) that differ by integers from the input, along the selected directions only, leaving the others unchanged, and is idempotent (real arithmetic). In binary64 a tiny negative coordinate is wrapped to exactly 1.0.", "quantifier": "all coordinates and direction masks", "why_tests_cant": "A test samples a few inputs; the claim must hold for every input of the stated shape, with no bound on size.", "anchors": ["src/pwtools/crys.py:pbc_wrap_coords", "src/pwtools/crys.py:pbc_wrap"]}
{"id": "C32", "title": "Cell and crystallographic constants are inverse", "statement": "cell2cc(cc2cell(cc)) = cc for every set of crystallographic constants that forms a cell, and cc2cell(cell2cc(cell)) has the same metric tensor (lengths and angles between the vectors) as cell; cc2celldm and celldm2cc are inverse on valid input; the cell from cc2cell has volume volume_cc(cc).", "quantifier": "all valid constants and all invertible cells (real arithmetic)", "why_tests_cant": "A test samples a few inputs; the claim must hold for every input of the stated shape, with no bound on size.", "anchors": ["src/pwtools/crys.py:cell2cc", "src/pwtools/crys.py:cc2cell", "src/pwtools/crys.py:cc2celldm", "src/pwtools/crys.py:celldm2cc", "src/pwtools/crys.py:volume_cc"]}
{"id": "C33", "title": "Reciprocal cell", "statement": "For every right-handed cell the rows of recip_cell are dual to the rows of the cell up to 2*pi; applying it twice gives back the cell; the volumes multiply to (2*pi)^3. For a left-handed cell all signs are flipped.", "quantifier": "all invertible cells", "why_tests_cant": "A test samples a few inputs; the claim must hold for every input of the stated shape, with no bound on size.", "anchors": ["src/pwtools/crys.py:recip_cell", "src/pwtools/crys.py:volume_cell"]}
{"id": "C34", "title": "Supercells repeat the structure exactly", "statement": "scell(st, (n1,n2,n3)) has natoms*|n1 n2 n3| atoms; every atom is an atom of the original cell shifted by an integer combination of the old cell vectors, every combination in range is present exactly once per atom, symbols follow the atoms, and the new fractional coordinates refer to the cell with row i scaled by n_i.", "quantifier": "all structures and all non-zero integer dims, both loop orders", "why_tests_cant": "A test samples a few inputs; the claim must hold for every input of the stated shape, with no bound on size.", "anchors": ["src/pwtools/crys.py:scell", "src/pwtools/crys.py:scell_mask"]}
{"id": "C35", "title": "Voigt and tensor forms are inverse", "statement": "tensor2voigt(voigt2tensor(v)) = v for every 6-vector, voigt2tensor(tensor2voigt(T)) = T for every symmetric T (and only for those), also for arrays of tensors.", "quantifier": "all 6-vectors and 3x3 tensors, any trajectory length", "why_tests_cant": "A test samples a few inputs; the claim must hold for every input of the stated shape, with no bound on size.", "anchors": ["src/pwtools/crys.py:tensor2voigt", "src/pwtools/crys.py:voigt2tensor"]}
{"id": "C36", "title": "Nearest neighbours", "statement": "nearest_neighbors_from_dists(..., num=n) returns the n nearest atoms sorted by distance without the central atom and without skipped species; with cutoff exactly the atoms below the cutoff. If the central atom's own species is skipped while num is used, the true nearest neighbour is lost.", "quantifier": "all distance matrices with zero diagonal and positive off-diagonal, all symbol lists", "why_tests_cant": "A test samples a few inputs; the claim must hold for every input of the stated shape, with no bound on size.", "anchors": ["src/pwtools/crys.py:nearest_neighbors_from_dists"]}
{"id": "C37", "title": "slicetake and sliceput address exactly the selected elements", "statement": "slicetake(a, sl, axis) returns the elements whose index along axis is selected by the slice (or integer) and all indices along the other axes; with axis=None one slice per axis. sliceput changes exactly the selected elements, and slicetake then returns what was put. extend_array inserts an axis of length nstep along which nothing changes. With axis given, sliceput indexes with a list, which numpy >= 1.23 rejects.", "quantifier": "all array shapes, axes and slices", "why_tests_cant": "A test samples a few inputs; the claim must hold for every input of the stated shape, with no bound on size.", "anchors": ["src/pwtools/num.py:slicetake", "src/pwtools/num.py:sliceput", "src/pwtools/num.py:extend_array"]}
{"id": "C38", "title": "num.sum over any set of axes", "statement": "num.sum(arr, axis=(i,j,...)) is the sum over these axes, in any order, for distinct non-negative axes; with keepdims=True it is the sum over all other axes. With negative axes in a tuple it sums over the wrong axes, with keepdims=True and negative axes over all axes, and a repeated axis sums over two axes instead of raising.", "quantifier": "all array shapes and axis tuples", "why_tests_cant": "A test samples a few inputs; the claim must hold for every input of the stated shape, with no bound on size.", "anchors": ["src/pwtools/num.py:sum"]}
{"id": "C39", "title": "match_mask selects the positions of the wanted values", "statement": "match_mask(arr, values) is True exactly at the positions of arr whose value equals (or is closer than eps to) some entry of values; fullout gives these positions in increasing order; arr[mask] keeps exactly the matching elements in order.", "quantifier": "all arrays and value lists", "why_tests_cant": "A test samples a few inputs; the claim must hold for every input of the stated shape, with no bound on size.", "anchors": ["src/pwtools/num.py:match_mask"]}
{"id": "C40", "title": "Polynomial fit powers and evaluation", "statement": "For every set of points and weights and every degree, the fitted polynomial minimises the (weighted) sum of squared residuals over all polynomials of that degree, so it reproduces the points exactly whenever a polynomial of that degree does; the monomials are all those of total degree at most the requested one, each once; evaluating the fit with and without internal scaling gives the same function; the derivative of a one-dimensional fit is the analytic derivative. Constant data cannot be scaled, so a scaled fit of constant data fails.", "quantifier": "all degrees, dimensions, coefficient vectors and points", "why_tests_cant": "A test samples a few inputs; the claim must hold for every input of the stated shape, with no bound on size.", "anchors": ["src/pwtools/num.py:poly_powers", "src/pwtools/num.py:polyval", "src/pwtools/num.py:polyfit"]}
{"id": "C41", "title": "round_up_next_multiple", "statement": "For a positive multiple m, round_up_next_multiple(x, m) is the least multiple of m that is not below x; for a negative m it returns x unrounded.", "quantifier": "all integers x and all m", "why_tests_cant": "A test samples a few inputs; the claim must hold for every input of the stated shape, with no bound on size.", "anchors": ["src/pwtools/num.py:round_up_next_multiple"]}
{"id": "C42", "title": "All autocorrelation methods agree", "statement": "signal.acorr gives the same function for all methods: the loop methods, the numpy correlate method and the FFT method (Wiener-Khinchin with zero padding) compute c(t) = sum_i v(i) v(i+t) for every t, normalised to c(0)=1 if requested, and |c(t)| <= c(0).", "quantifier": "all real signals of any length >= 1", "why_tests_cant": "A test samples a few inputs; the claim must hold for every input of the stated shape, with no bound on size.", "anchors": ["src/pwtools/signal.py:acorr", "src/_ext_src/flib.f90:acorr"]}
{"id": "C43", "title": "All velocity autocorrelation methods agree, independently of thread scheduling", "statement": "The python loops and both Fortran methods compute the same VACF for all velocities and masses, and the OpenMP loop gives this result for every assignment and interleaving of iterations to threads.", "quantifier": "all velocity arrays, masses, thread schedules", "why_tests_cant": "Thread schedules cannot be enumerated by tests.", "anchors": ["src/pwtools/pydos.py:pyvacf", "src/_ext_src/flib.f90:vacf"]}
{"id": "C44", "title": "Zero padding", "statement": "Padding an array along an axis with zeros keeps every original entry in its place, adds only zeros, and leaves all other axes untouched. Asking for a final length gives exactly that length; asking for the next power of two gives the smallest power of two that is at least the requested minimum (by default the length itself); adding zero entries returns the array as it is; contradictory requests are refused.", "quantifier": "all arrays and options", "why_tests_cant": "A test samples a few inputs; the claim must hold for every input of the stated shape, with no bound on size.", "anchors": ["src/pwtools/signal.py:pad_zeros"]}
{"id": "C45", "title": "Peak finding", "statement": "find_peaks returns exactly the interior points strictly higher than both neighbours; the ymin cut is applied to the left neighbour of the peak instead of the peak itself, so peaks above ymin can be missed.", "quantifier": "all sampled curves", "why_tests_cant": "A test samples a few inputs; the claim must hold for every input of the stated shape, with no bound on size.", "anchors": ["src/pwtools/signal.py:find_peaks"]}
{"id": "C46", "title": "Smoothing keeps length and constants", "statement": "smooth(data, kern, axis, edge) returns an array of the shape of data for every kernel length the code accepts; with normalisation a constant signal is returned unchanged for edge 'c'; for edge 'm' this holds while the kernel is short enough, otherwise zeros leak in.", "quantifier": "all data lengths and kernels", "why_tests_cant": "A test samples a few inputs; the claim must hold for every input of the stated shape, with no bound on size.", "anchors": ["src/pwtools/signal.py:smooth"]}
{"id": "C47", "title": "fftsample is its own inverse", "statement": "For both settings of mirr, fftsample from frequency to time parameters and back returns the original frequency parameters.", "quantifier": "all positive parameters", "why_tests_cant": "A test samples a few inputs; the claim must hold for every input of the stated shape, with no bound on size.", "anchors": ["src/pwtools/signal.py:fftsample"]}
{"id": "C48", "title": "Text array files round-trip", "statement": "readtxt(writetxt(arr, axis)) = arr for every 3d array whose text has at least two rows and two columns and for every axis; a 3d array whose text is a single row or column is written but cannot be read back; 1d and 2d arrays lose their axes of length one; arrays without elements come back as array([]); other ranks and bad axes are refused.", "quantifier": "all array shapes and axes", "why_tests_cant": "A test samples a few inputs; the claim must hold for every input of the stated shape, with no bound on size.", "anchors": ["src/pwtools/arrayio.py:writetxt", "src/pwtools/arrayio.py:readtxt", "src/pwtools/arrayio.py:arr2d_to_3d"]}
{"id": "C49", "title": "DCD files: readers agree and truncation is detected", "statement": "On every well-formed dcd file with at least one frame all three readers return the frames that were written (the Fortran reader with the header's step count returns that many frames or ends the program). On a file cut at any byte, read_dcd_data raises unless the cut is at the end of a frame, and then returns the frames before it; read_dcd_data_ref returns the complete frames before the cut; the Fortran reader ends the program when a frame lacks some of its records. On every file whatsoever, whatever read_dcd_data returns read_dcd_data_ref returns too. The whole-number-of-frames test, made in floating point, is exact below 2^53 bytes. A header without frames is read by read_dcd_data_ref only.", "quantifier": "all files (any number of atoms and frames) and every truncation point", "why_tests_cant": "Every byte position is a possible crash point of the writer.", "anchors": ["src/pwtools/dcd.py:read_dcd_data", "src/pwtools/dcd.py:read_dcd_data_ref", "src/pwtools/dcd.py:read_dcd_data_f", "src/_ext_src/dcd.f90"]}
{"id": "C50", "title": "HDF5 dictionaries round-trip", "statement": "read_h5(write_h5(dct)) returns dct with keys normalised to a leading slash; writing works exactly when no key is another one or names a group on the way to it. Append mode adds new keys and never changes stored values, over any number of calls: a key that clashes raises, with the keys before it already written. Read-update-rewrite gives the updated dict if the update uses leading slashes (without them it raises). bytes values come back as text.", "quantifier": "all dicts and write histories", "why_tests_cant": "A test runs a few fixed histories; the claim is about every history, including repeated, mixed and failing calls.", "anchors": ["src/pwtools/io.py:write_h5", "src/pwtools/io.py:read_h5"]}
{"id": "C51", "title": "Random structures respect the minimum distances", "statement": "For every stream of random numbers: a structure returned by get_random_struct has all its atoms in the unit cell, no two of them closer than the sum of their scaled radii in the minimum image convention, and a cell whose volume, side lengths and angles are in the requested ranges. The cell is the first of cell_maxtry candidates whose volume fits, each atom the first of atom_maxtry candidates with room, and the call fails exactly when there is none. Read as a claim about the nearest periodic images the distance claim is false: in an oblique cell a structure with two images closer than that can be returned with the default settings.", "quantifier": "all random number streams and settings", "why_tests_cant": "Random streams are infinite in number.", "anchors": ["src/pwtools/random.py:RandomStructure"]}
{"id": "C52", "title": "TagTimer", "statement": "For every sequence of t() and pt() calls with any tags, the state of one tag depends only on the calls with that tag: an odd t() starts an interval and the next one ends it, pt() ends an open interval and reports the length of the last one, a second pt() in a row reports the same value, and pt() raises exactly when t() was never called for that tag.", "quantifier": "all call sequences", "why_tests_cant": "A test runs a few fixed histories; the claim is about every history, including repeated, mixed and failing calls.", "anchors": ["src/pwtools/timer.py:TagTimer"]}
{"id": "C53", "title": "k-paths pass through the special points", "statement": "kpath(ks, N) has N*(len(ks)-1)+1 points, contains vertex i at index i*N, is linear in between, and get_path_norm is non-decreasing along it; the vertices have the same path norm on the fine path as on the vertex list, so that labels sit at the vertices.", "quantifier": "all vertex lists with at least two points and all N >= 1", "why_tests_cant": "A test samples a few inputs; the claim must hold for every input of the stated shape, with no bound on size.", "anchors": ["src/pwtools/kpath.py:kpath", "src/pwtools/kpath.py:get_path_norm"]}
{"id": "C54", "title": "Vinet equation of state", "statement": "The analytic first and second derivatives used for the Vinet EOS are the derivatives of its energy function for all parameters and volumes; at V0 the energy is E0, the pressure 0, the bulk modulus B0 and its pressure derivative B1; get_min is the global minimum. bulkmod(V) as implemented ignores V and is the bulk modulus only at V0. The check of the starting parabola raises only when its vertex is below the volumes, not when it is above them. Energies on a Vinet curve are fitted exactly if leastsq finds a minimiser.", "quantifier": "all E0, B0>0, B1 != 1, V0>0, V>0", "why_tests_cant": "A test samples a few inputs; the claim must hold for every input of the stated shape, with no bound on size.", "anchors": ["src/pwtools/eos.py:EosFit"]}
{"id": "C55", "title": "Harmonic thermodynamics identities", "statement": "For every density of states with positive frequencies and every temperature, evib = fvib + T*svib in consistent units for every linear integrator; with trapz svib is minus the temperature derivative of fvib, cv the derivative of evib, svib >= 0, 0 <= cv <= area of the dos with equality in the high temperature limit, and evib is at least the zero point energy. skipfreq drops the frequencies up to eps, dosarea sets the area. Gibbs: F = etot + fvib, H = E + PV, G = F + PV at every grid point; the value Gibbs.calc_F reports for Evib differs from the internal energy because the entropy is not converted from kb to eV.", "quantifier": "all non-negative DOS arrays, frequency grids and temperatures > 0", "why_tests_cant": "A test samples a few inputs; the claim must hold for every input of the stated shape, with no bound on size.", "anchors": ["src/pwtools/thermo.py:HarmonicThermo", "src/pwtools/thermo.py:Gibbs.calc_F"]}
{"id": "C56", "title": "Bravais lattices from ibrav", "statement": "For every ibrav from 1 to 14 and every celldm describing a proper conventional cell, ibrav2cell returns a right-handed primitive cell: its integer combinations are exactly the points of the named Bravais lattice (with its centring, edge lengths and angles), its volume is the conventional volume divided by the number of lattice points per conventional cell. Entries not needed have no influence, a missing needed entry or an unknown ibrav raises, and ibrav 14 equals crys.cc2cell(crys.celldm2cc(celldm)).", "quantifier": "all ibrav, all celldm with any subset of entries None, all integer combinations", "why_tests_cant": "A test samples a few inputs; the claim must hold for every input of the stated shape, with no bound on size.", "anchors": ["src/pwtools/pwscf.py:ibrav2cell"]}
{"id": "C57", "title": "RBF derivatives", "statement": "Rbf.predict is the sum of w_j phi(|x-c_j|^2) whatever the normalisation of the weights; Rbf.deriv is its gradient (directional derivative in every direction) for all three basis functions, all centers, weights (not all zero) and points where phi is smooth, for one point and row by row; with r=0 predict reproduces the training values unless they are all zero (then it is nan), with r>0 prediction + r*weight is the value, with r=None no other weights have a smaller squared error; p='mean' is positive iff two training points differ; fit_error is zero iff the fit is perfect.", "quantifier": "all dimensions, centers, weights, points, values, r, p; any exact solver", "why_tests_cant": "Tests compare with finite differences at random points; the claim is an identity of derivatives at all points and an exact property of all solutions.", "anchors": ["src/pwtools/rbf/core.py:Rbf"]}
{"id": "C58", "title": "LAMMPS reader", "statement": "For a triclinic dump of any number of frames, get_cell of the LAMMPS text parser returns per frame the cell [[x,0,0],[xy,y,0],[xz,yz,z]] for every origin and tilts of any sign; get_natoms the atom count; get_coords, get_coords_frac, get_forces, get_velocity the array whose entry (frame, atom) holds the three named columns of that row (None if a column is absent); from the log, the thermo getters return the named column over the rows of all runs, and get_stress per row the symmetric tensor of the pressure columns. A dump of an orthogonal box, which has no tilt columns, cannot be read by get_cell: it always raises.", "quantifier": "all dumps and logs in the documented format with any number of frames, atoms, columns and runs; all boxes", "why_tests_cant": "A test samples a few inputs; the claim must hold for every input of the stated shape, with no bound on size.", "anchors": ["src/pwtools/parse.py:LammpsTextMDOutputFile.get_cell"]}
{"id": "C59", "title": "makedb in append mode only appends", "statement": "makedb(filename, lists, colnames, mode='a') on an existing table keeps the columns and every stored row, also when it raises; on success it appends one row per input list, in order, with the j-th value under the j-th column name and NULL in all columns not named.", "quantifier": "all tables, lists and column names", "why_tests_cant": "Data loss would show only for particular tables and failing rows; the claim covers all of them.", "anchors": ["src/pwtools/sql.py:makedb"]}
{"id": "C60", "title": "A parser gives converted quantities only once", "statement": "The first get_struct() or get_traj() of a parser returns an object in which each parsed quantity is multiplied by its unit factor; every later call on the same parser puts the unconverted quantities back into the very same object and returns it, so that the object returned first changes, too.", "quantifier": "all parsers, all unit factors, with and without auto_calc", "why_tests_cant": "Tests call get_struct once per parser; the second call shows only in the values, not as an error.", "anchors": ["src/pwtools/parse.py: StructureFileParser.get_cont", "src/pwtools/crys.py: UnitsHandler.apply_units"]}
{"id": "C61", "title": "Periodic distances", "statement": "distances(struct, pbc=True) gives for every pair of atoms the minimum image of their fractional difference and its Cartesian length: zero on the diagonal, unchanged when atoms are moved by lattice vectors, symmetric in orthogonal cells and whenever no component of the difference is a half-integer. In a skewed cell with a half-integer difference the distance matrix can be asymmetric.", "quantifier": "all structures and all lattice shifts (real arithmetic)", "why_tests_cant": "The exceptional pairs form a set of measure zero, which sampled structures miss.", "anchors": ["src/pwtools/crys.py:distances", "src/_ext_src/flib.f90:distsq_frac"]}
{"id": "C62", "title": "vlinspace", "statement": "vlinspace(a, b, num) has num points, the k-th being a + k (b-a)/(num-1) (endpoint=True) or a + k (b-a)/num (endpoint=False); with endpoint and num > 1 the first is a and the last is b; num=1 gives a.", "quantifier": "all vectors of equal length and all num >= 1 (real arithmetic)", "why_tests_cant": "A test samples a few inputs; the claim must hold for every input of the stated shape, with no bound on size.", "anchors": ["src/pwtools/num.py:vlinspace"]}
{"id": "C63", "title": "norm_int normalises the area", "statement": "After norm_int(y, x, area) the integral over x is area, and scale=True and scale=False give the same result, for every integration rule homogeneous in y and x (such as trapz), whenever the original integral is not zero.", "quantifier": "all data, areas and homogeneous integration rules (real arithmetic)", "why_tests_cant": "A test samples a few inputs; the claim must hold for every input of the stated shape, with no bound on size.", "anchors": ["src/pwtools/num.py:norm_int"]}
{"id": "C64", "title": "euler_matrix is a rotation", "statement": "euler_matrix(phi, theta, psi) is a rotation matrix (orthonormal rows, determinant 1, preserves dot products); its inverse is euler_matrix(-psi, -theta, -phi); angles outside the allowed ranges raise; degrees are converted.", "quantifier": "all angles (real arithmetic)", "why_tests_cant": "A test samples a few inputs; the claim must hold for every input of the stated shape, with no bound on size.", "anchors": ["src/pwtools/num.py:euler_matrix"]}
{"id": "C65", "title": "order_similar", "statement": "order_similar keeps the first row and takes every value of a row from the same row of the input. With order=2 it recovers data streams from rows in any order whenever the value nearest to the extrapolation is the stream's own. It does not permute rows: a value can be taken twice. With order 0 or 1 all columns are equal from row 2 or 3 on, and repeat > 1 is one pass with order=2.", "quantifier": "all 2d arrays, orders and repeat counts (real arithmetic)", "why_tests_cant": "A test samples a few inputs; the claim must hold for every input of the stated shape, with no bound on size.", "anchors": ["src/pwtools/num.py:order_similar"]}
{"id": "C66", "title": "DataND rebuilds the grid", "statement": "DataND(a2) recovers the axes and puts every value at its grid index, for every flattened grid over strictly increasing axes; for other axis orders values end up at wrong axis positions.", "quantifier": "all grids of any dimension and size", "why_tests_cant": "A test samples a few inputs; the claim must hold for every input of the stated shape, with no bound on size.", "anchors": ["src/pwtools/num.py:DataND"]}
{"id": "C67", "title": "Fourier transforms, mirroring and windows", "statement": "For every signal, the plain Fourier sum returns at each index k the sum of the samples times exp(-2 pi i k n / N); mirroring an array of n samples gives 2n-1 samples, equal to the original in the second half and to its reflection in the first; the Welch window is zero at both ends, one in the middle, symmetric and within [0,1]; the odd-number helper returns the nearest odd integer in the requested direction.", "quantifier": "all signals of every length; all window lengths; all integers", "why_tests_cant": "a test compares with one FFT of one random array; the identity has to hold for every length and every sample value", "anchors": ["src/pwtools/signal.py: dft, mirror, welch, odd"]}
{"id": "C68", "title": "Two routes to the vibrational spectrum agree", "statement": "For every trajectory, every choice of masses and with or without windowing, the density of states computed directly from velocities padded with npad=1 equals, frequency by frequency and value by value, the one computed from the mirrored velocity autocorrelation function. With any padding, the direct result is the mass-weighted power spectrum of the (windowed) velocities at frequencies k/(N dt), nowhere negative, with its integral normalised to the requested area; rounding the length up gives the smallest power of two that is at least the padded length.", "quantifier": "all velocities, numbers of steps and atoms, non-negative masses, time steps, areas, windowing on or off, all paddings, all schedules of the threaded autocorrelation", "why_tests_cant": "the claim in the documentation (\"the exact same spectrum\") is an identity between two algorithms over all trajectories; tests compare one trajectory within a tolerance", "anchors": ["src/pwtools/pydos.py: pdos, direct_pdos, vacf_pdos", "src/pwtools/signal.py: pad_zeros, welch, mirror"]}
{"id": "C69", "title": "Parsers convert to eV, Angstrom, fs, GPa in any history", "statement": "After any sequence of parser constructions in a process, with any units arguments, a newly made parser of any class multiplies each quantity it reads by exactly the factor that turns the unit its files use into eV, Angstrom, fs, GPa, K (or by the user's factor if given), whatever the values of the physical constants. Exception: the stress factor of the cp2k SCF parser is 1e-4 instead of 1 as soon as any cp2k MD, relax or DCD parser was constructed before (see C24).", "quantifier": "all histories of parser constructions of all parser classes, all units arguments", "why_tests_cant": "The state is process-wide and the failure depends on which parsers ran earlier; tests run each parser in a few fixed orders.", "anchors": ["src/pwtools/parse.py:StructureFileParser.__init__", "src/pwtools/parse.py:Cp2kMDOutputFile.__init__", "src/pwtools/parse.py:Cp2kSCFOutputFile.default_units", "src/pwtools/parse.py:LammpsTextMDOutputFile.__init__"]}
{"id": "C70", "title": "Radial pair distribution function counts neighbours correctly", "statement": "crys.rpdf(trajs, dr, rmax, amask, tmask, dmask, pbc=True) returns rows (r, g, number integral). For rmax up to rmax_smith(cell) (the default) the number integral in row k is the average over the selected time steps and the atoms of the first selection of how many atoms of the second selection have a periodic image at a distance in [dr, (k+1) dr) below rmax; that image is unique, so nothing is counted twice or missed. The increments of the number integral are density of the second selection times g times the volume of the shell, g does not change when the selections are exchanged, and the number integrals then are in the inverse ratio of the numbers of atoms. rmax_smith is half the smallest perpendicular width of the cell and beyond it the minimum image convention misses separations. The masks in the amask list are independent of earlier calls: this is false, the function overwrites names in the caller's list with bool arrays.", "quantifier": "all cells with non-zero volume, all trajectories, selections by name, bool array or slice, time slices, distance masks, bin widths and radii", "why_tests_cant": "Tests compare g(r) with stored reference data or another program for a few structures; which image is nearest depends on real-valued geometry of skewed cells.", "anchors": ["src/pwtools/crys.py:rpdf", "src/pwtools/crys.py:rmax_smith", "src/pwtools/crys.py:min_image_convention"]}
{"id": "C71", "title": "Distance matrices do not depend on the thread schedule", "statement": "distances(struct) fills every entry of its three result arrays with the (squared) length, the Cartesian and the fractional vector between the two atoms, whatever the freshly allocated arrays held. distances_traj(traj) gives for every frame the matrix distances gives for that frame, for every number of threads, every assignment of frames to threads and every interleaving, and always runs to its end; without the private clause of the OpenMP loop a schedule exists that stores the distances of another frame. num.distsq gives the squared distance of every pair of points for every schedule and refuses points of different dimension. Without pbc the distances are a metric.", "quantifier": "all structures, trajectories, point sets, numbers of threads, assignments of iterations and interleavings of single assignments; all initial contents of the work arrays", "why_tests_cant": "Schedules cannot be enumerated by tests, and a race shows up rarely.", "anchors": ["src/pwtools/crys.py:distances", "src/pwtools/crys.py:distances_traj", "src/pwtools/num.py:distsq", "src/_ext_src/flib.f90:distsq", "src/_ext_src/flib.f90:distances_traj", "src/_ext_src/flib.f90:distsq_frac"]}
{"id": "C72", "title": "Angles of atom triples", "statement": "angles(struct) holds for every triple of different atoms the cosine of the angle at the first atom, or the angle in degrees (exactly, up to a snap of cosines within 2.2e-16 of 1 or -1), NaN when atoms coincide, and the fill value everywhere else. Selecting by comparison with the fill value gives exactly the natoms*(natoms-1)*(natoms-2) triples of different atoms. The outer atoms can be exchanged and the angles of a triangle add up to 180 degrees without pbc. Fill values in [0,180] (degrees) or [-1,1] (cosines) are refused. False for an accepted fill value in [-1,0) with deg=True: with mask_val=-1 an angle of 180 degrees is lost.", "quantifier": "all structures, all fill values, with and without pbc, degrees or cosines (real arithmetic)", "why_tests_cant": "The claim ranges over all structures; the failing case needs a cosine equal to the fill value, which random structures do not have.", "anchors": ["src/pwtools/crys.py:angles", "src/_ext_src/flib.f90:angles"]}
{"id": "C73", "title": "Velocities, RMSD and mean of a trajectory", "statement": "crys.velocity_traj(arr, dt) returns at every inner time step the central difference (x[t+1]-x[t-1])/(2 dt), which is the exact velocity for any motion with constant acceleration; with endpoints=True both end values are copies of their neighbours and fewer than three frames are refused, with endpoints=False two frames fewer come back. crys.rmsd(traj, ref_idx) is for every frame the root mean square displacement of the atoms from the reference frame: zero for the reference, symmetric, obeying the triangle inequality, unchanged by any common rotation, reflection and translation; negative indices count from the end and indices outside raise. crys.mean(traj) averages every attribute with a time axis element by element, copies the others and drops time, timestep and nstep, whatever order python walks through its sets; when the cell does not change, mean coords and mean coords_frac belong together. Not true: integer coordinate arrays keep their velocities (endpoints=True truncates them), and coords, cell and volume of the mean fit together for a variable cell.", "quantifier": "all trajectories (any number of frames and atoms, any real coordinates), time steps, reference indices, sets of attributes present, set iteration orders and rigid motions", "why_tests_cant": "tests compare a few random trajectories; they cannot show exactness for all quadratic motions, the metric laws, independence of set iteration order or locate the cases in which the pieces do not fit together", "anchors": ["src/pwtools/crys.py: velocity_traj, rmsd, mean", "src/pwtools/num.py: rms, rms3d"]}
{"id": "C74", "title": "align_cart and center_on_atom move structures rigidly", "statement": "crys.align_cart expresses all vectors in the new axes and keeps coords_frac and symbols (all other attributes, e.g. forces and timestep, are dropped). Orthonormal axes, in particular those of x and y at a right angle, are always accepted, keep all distances, lattice constants and volumes, and put the points that define them on the x and y axes. What the check with eps > 0 accepts is orthonormal up to sqrt(3) eps + 1e-5, and with x and y no squared distance changes by a larger fraction than that. Aligning twice composes. crys.center_on_atom puts atom idx of every frame at the fractional coordinates (0.5,0.5,0.5), keeps all differences between atoms, recomputes coords, leaves the rest (and, with copy=True, the argument) unchanged, and raises exactly for indices outside -natoms..natoms-1. Not true: distances are kept when the check is off; handedness is kept for a given cart; a refused in-place center_on_atom leaves its argument as it was (its coords are gone); velocities of a centered trajectory belong to its coordinates.", "quantifier": "all structures and trajectories, all ways to give the axes, all eps, all atom indices, copy and in-place calls, including failing ones", "why_tests_cant": "tests align a few molecules; they cannot bound the distortion the tolerance admits for every pair of axes nor show which state a failing in-place call leaves behind", "anchors": ["src/pwtools/crys.py: align_cart, center_on_atom, Structure.set_all, Structure.get_coords, Trajectory.get_velocity"]}
{"id": "C75", "title": "Grids for a target spacing", "statement": "crys.grid_in_cell(cell, h) returns per axis the integer nearest to length/h (ties to the even one), raised to the next even number for even=True, at least minpoints and never zero; the effective spacing times the number of points is the length of the axis, never exceeds h by more than h/(2 points), and is at most that much smaller unless minpoints or even made the grid denser. A smaller h, larger minpoints or even=True never coarsens the grid; size=... gives the spacing that fullout=True reports, and a spacing common to all axes gives back the size it came from. The call raises exactly if both or neither of h and size are given, minpoints is negative or a count is zero. kgrid uses the lengths of the reciprocal vectors, and scaling the cell by s and h by 1/s does not change the grid. Not true: even=True gives even numbers with the default minpoints=1 (it does whenever minpoints is even).", "quantifier": "all cells, spacings h different from zero, sizes, minpoints and flags", "why_tests_cant": "tests check a handful of cells; rounding ties, interplay of even with minpoints and the error bound need all inputs", "anchors": ["src/pwtools/crys.py: grid_in_cell, kgrid, recip_cell"]}
{"id": "C76", "title": "Smoothing a trajectory", "statement": "crys.smooth replaces every number of a trajectory that depends on time by its mean over a window of time steps, weighted with the normalised kernel and mirrored at both ends, for each column on its own and with the same number of steps, and copies everything else; attributes that are None stay None. Both methods give the same trajectory. With a constant cell and a kernel no longer than 2*nstep-1 the smoothed Cartesian coordinates are the smoothed fractional ones in the unchanged cell. This is false for a variable cell; the time axis is smoothed as well, so that time no longer fits the copied timestep; method 1 truncates arrays of integers.", "quantifier": "all trajectories, whichever attributes are set, all kernels, both methods, all orders of the set of copied attributes", "why_tests_cant": "A test smooths one trajectory with one kernel; the claim is about all of them, and about relations between attributes which the code treats one by one.", "anchors": ["src/pwtools/crys.py: smooth", "src/pwtools/signal.py: smooth"]}
{"id": "C77", "title": "The PDB reader returns exactly the atoms and cell constants written in the file", "statement": "For every PDB text whose ATOM/HETATM records are regular (a name of letters, no special characters between name and x, a blank before x, an x with decimal point or sign, separated columns), PDBFile returns one symbol and one coordinate row per record, in file order, each row the record's x, y and z; names of two letters get a small second letter and all others are kept. All other lines are ignored. The cell constants are the six numbers after the first CRYST1 if two blanks follow the word. Outside these forms it goes wrong: a file without CRYST1 raises instead of giving None as documented, a CRYST1 with one blank before a raises, an atom whose name has a prime is left out silently, an x without decimal point shifts the columns silently, and touching columns are read as one.", "quantifier": "all PDB texts: any number of lines, records, residues, numbers and trailing fields", "why_tests_cant": "the pattern backtracks over the residue field and numbers; tests use one file, and the silent losses only show up with particular names and numbers", "anchors": ["/repo/src/pwtools/parse.py: PDBFile._get_coords_data, get_symbols, get_coords, get_cryst_const", "/repo/src/pwtools/regex.py: float_re"]}
{"id": "C78", "title": "CIF blocks are read without uncertainties and written structures are read back", "statement": "For every CIF data block: the cell constants are the six numbers _cell_length_a/b/c, _cell_angle_alpha/beta/gamma in this order, each without the uncertainty in brackets, and the reader raises if one of them is missing or is no number; the fractional and Cartesian coordinates are the columns x, y, z of the loop row by row, or None if the file has none; the symbols are the leading letters of the type symbols, or of the labels if there are no type symbols. For every structure whose symbols consist of letters, write_cif followed by CifFile gives back symbols, cell constants and fractional coordinates. Symbols with digits do not come back. An atom that is given without a loop is read character by character.", "quantifier": "all data blocks, texts of numbers with and without uncertainty, labels, all structures", "why_tests_cant": "the values have to be right for every text of a number and every label; tests use a few files, and none has an atom outside a loop", "anchors": ["/repo/src/pwtools/parse.py: CifFile.cif_str2float, cif_clear_atom_symbol, get_cryst_const, get_coords_frac, get_coords, get_symbols", "/repo/src/pwtools/io.py: write_cif"]}
{"id": "C79", "title": "Floating-point numbers written with 17 digits are read back bit by bit", "statement": "For every binary64 number, including both zeros, subnormal numbers, infinities and NaN, the text written with \"%.16e\" (the format of frepr, str_arr, write_cif and the sgroup writer) or more digits (\"%.18e\" of the text arrays) is read back by float() as the same number. The text has the form d.ddd...e+dd with no leading zero and is off by at most half a unit of its last digit. Hence text arrays and CIF files keep structures exactly. With 16 digits or fewer (for instance the 14 digits of the LAMMPS writer) this fails.", "quantifier": "all binary64 numbers, all numbers of digits", "why_tests_cant": "there are 2^64 numbers, and the critical ones are those next to powers of two and ten", "anchors": ["/repo/src/pwtools/common.py: frepr, str_arr", "/repo/src/pwtools/io.py: write_cif, wien_sgroup_input", "/repo/src/pwtools/arrayio.py: writetxt, readtxt", "/repo/src/pwtools/parse.py: CifFile.cif_str2float", "/repo/src/pwtools/lammps.py: struct_str"]}
{"id": "C80", "title": "Structures and arrays written as text hold exactly the numbers and symbols given", "statement": "For every array of rank 1 or 2, str_arr writes one line per row whose words are read back as the numbers given, except that with eps > 0 exactly the numbers of magnitude at most eps become zero (arrays of other rank raise). atpos_str and atpos_str_fast write one line per atom: the symbol, then its numbers. Files of write_xyz consist of one frame per step, each with the number of atoms, the comment name.i (i from 1) and the atoms in order; files of write_axsf announce the number of steps and hold for every step the cell (numbers up to 2^-52 as zero), the number of atoms and for every atom symbol, position and, if known, force in Ha/Angstrom, steps numbered from 1. If symbols and positions differ in number nothing is written. The claims need symbols which are words of at most 32 characters and a name without line end: longer symbols are cut, a line end in the name moves the rest of the name among the atoms, and the default eps turns small numbers such as 1e-17 into zero.", "quantifier": "all arrays, symbols, names, steps, separators, and all formats that can be read back", "why_tests_cant": "tests look at a few files, not at every number of steps, atoms and every value", "anchors": ["/repo/src/pwtools/common.py: fix_eps, str_arr", "/repo/src/pwtools/pwscf.py: atpos_str, atpos_str_fast", "/repo/src/pwtools/io.py: write_xyz, write_axsf"]}
{"id": "C81", "title": "Species, types, counts, atomic numbers and masses of a structure agree with its symbols", "statement": "For every list of atom symbols: symbols_unique holds exactly the symbols that occur, once each, in alphabetical order, whatever the order and number of the atoms; order numbers them from 1; typat gives every atom the number under which its symbol is found in symbols_unique; nspecies counts the atoms of every symbol and the counts add up to the number of atoms; znucl, znucl_unique, mass and mass_unique hold the entries of the periodic table for every symbol, so that mass_unique at the type of an atom is the mass of the atom; a symbol which is not in the table raises. The table holds no symbol twice and every mass except that of the placeholder Xx is positive. Atomic numbers agree with the systematic names up to element 116, but element 117 (Uus) was left out of the table, so that Uuo is numbered 117 instead of 118.", "quantifier": "all lists of atom symbols", "why_tests_cant": "tests use two or three structures with two species in sorted order", "anchors": ["/repo/src/pwtools/crys.py: get_symbols_unique, get_order, get_typat, get_znucl_unique, get_znucl, get_ntypat, get_nspecies, get_mass, get_mass_unique", "/repo/src/pwtools/atomic_data.py: symbols, masses, numbers, pt"]}
{"id": "C82", "title": "LAMMPS data files describe the structure, up to rotation and mirroring", "statement": "For every structure with known symbols, write_lammps writes a data file with the number of atoms and types, the box, one line per atom with running number, type and position (as written by %23.16e, numbers up to 1e-13 as zero), and one line per type with its mass, such that the type of every atom leads to its own symbol and mass; the file of symbols next to it is read back as the same list. The box is lower triangular with positive diagonal, and all lengths, angles, distances between atoms (in any two periodic images) and the volume are those of the structure. Unknown symbols raise. If the cell is left-handed, the structure written is its mirror image: the orientation of every three atom vectors is reversed.", "quantifier": "all symbols, cells with non-zero volume, positions, all atoms and images", "why_tests_cant": "tests compare one structure; the types matter for every order of symbols, and the geometry for every cell", "anchors": ["/repo/src/pwtools/lammps.py: struct_str", "/repo/src/pwtools/io.py: write_lammps", "/repo/src/pwtools/parse.py: LammpsTextMDOutputFile.get_symbols", "/repo/src/pwtools/crys.py: get_cell, get_coords, cc2cell, cell2cc"]}
{"id": "C83", "title": "Frequency files of matdyn.x are read in full, but a truncated file is not noticed", "statement": "For every header with the number of bands and points in any blanks, and every list of k-points and frequencies written after it with any line breaks, read_matdyn_freq returns exactly these k-points and frequencies. In general the first floor(number of words / (3 + nbnd)) rows are the complete records of the file; if the file announces more points than it holds, the remaining rows of the result are uninitialised memory and no error is raised; one complete record too many raises; an incomplete record at the end is ignored; a word that is no number (two numbers printed without a blank, or asterisks) raises.", "quantifier": "all numbers of bands and points, all lists of numbers, all layouts of lines and blanks, all truncations", "why_tests_cant": "tests read one complete file; a truncated one may pass by accident since fresh memory often holds zeros", "anchors": ["/repo/src/pwtools/pwscf.py: read_matdyn_freq"]}
{"id": "C84", "title": "Input files for pw.x describe the structure and settings given", "statement": "For every structure with known symbols and every set of parameters, the input written by the Pwscf calculator holds, in the namelists and cards pw.x reads, the parameters, the numbers of atoms and types, one line per type with symbol, mass and pseudopotential, the cell and the fractional coordinates (numbers up to the machine epsilon as zero, others exactly) and the k-grid. Unknown symbols, missing pseudopotentials, coordinates that do not fit and a grid given as tuple raise. The pseudopotential of a type is the first file of the list that starts with its symbol: right for files in sorted order, but C may get the file of Cl otherwise. The smearing settings of the template stand outside all namelists and are never read. kpoints_str_pwin keeps grid and shift for lists only: with arrays the shift is added to the grid, with tuples it raises; the full form drops a shift for the grid 1 1 1.", "quantifier": "all structures, parameters, lists of pseudopotentials, grids and shifts and kinds of sequence", "why_tests_cant": "tests write one or two inputs with elements none of which is the beginning of another, and do not run pw.x", "anchors": ["/repo/src/pwtools/calculators.py: Pwscf.write_input, infile_templ, fill_infile_templ", "/repo/src/pwtools/pwscf.py: atspec_str, kpoints_str, kpoints_str_pwin, kpoints_str_pwin_full, bool2str"]}
{"id": "C85", "title": "Output files of pw.x runs are read step by step", "statement": "For every output file of a pw.x run, with any other text between the parts, the parser of MD-like runs returns the positions of all steps in the unit named by the first block, the cells (in bohr, angstrom, alat, or with the alat of each header), and for a run that ended after a calculation the energies, total forces and stresses that belong to these positions; the first calculation is what the parser of single calculations returns. A cut off block of positions raises. When the last structure printed has no result (stopped run, finished relaxation) every structure is paired with the energy of the one before; positions without a unit give no coordinates although the documentation lists them; blocks in different units are all taken in the first unit; a file without forces raises for MD-like runs.", "quantifier": "all numbers of steps, atoms and force contributions, all values, all text in between and spacings of lines; files cut off anywhere in the last block of positions", "why_tests_cant": "tests parse a few stored files of finished runs and compare with stored arrays", "anchors": ["/repo/src/pwtools/parse.py: PwSCFOutputFile, PwMDOutputFile, traj_from_txt, arr1d_from_txt, arr2d_from_txt, int_from_txt, float_from_txt"]}
{"id": "C86", "title": "Output files of CP2K runs are read step by step", "statement": "For every CP2K trajectory file (positions, velocities, forces) the parser returns all values of all steps in order, the number of atoms and the symbols of the first step; a file cut behind any line is read up to the last complete step, or the parser raises, exactly by where it is cut. Columns of the energy, cell and stress files are what the getters return for two or more steps, and a run with one step raises. Without a force file the force blocks of the output file are read, whatever else is printed between them; with one, the file wins. A cell optimisation gets its last cell twice when it finished and raises otherwise; other runs get the cells as they are. The output of a single calculation gives number of atoms, symbols, forces, energy and stress; two energies in one file raise.", "quantifier": "all numbers of steps and atoms, all values and symbols not starting with a digit, all spacings, all other lines of the output file; cuts behind every line", "why_tests_cant": "tests parse a few stored runs and compare with stored arrays", "anchors": ["/repo/src/pwtools/parse.py: Cp2kSCFOutputFile, Cp2kMDOutputFile, Cp2kRelaxOutputFile"]}
{"id": "C87", "title": "Output files of CPMD runs are read as they are written", "statement": "The number of atoms is the number of rows of six numbers in GEOMETRY, whatever lines about the cell follow. The last blocks of GEOMETRY.scale give cell, fractional coordinates and symbols; the last blocks of the output file give stress and gradients, and the convergence message sets the flag. ENERGIES is read by columns, which depend on the kind of run (9, 8 or 6 columns; any other number raises). TRAJECTORY and FTRAJECTORY give coordinates, velocities and forces of all atoms at all steps, lines from restarts are ignored, and a file that ends inside a step raises. CELL and STRESS give all blocks. Also stated: gradients are returned as forces without a change of sign, the total classical energy is returned as kinetic energy, the conserved energy of Lanczos runs is not returned, one step alone cannot be read, and a line between two blocks of CELL or STRESS raises.", "quantifier": "all numbers of atoms and steps, all values, all spacings, restart lines at every place, all other lines of the output file", "why_tests_cant": "tests parse a few stored runs and only check that values are set", "anchors": ["/repo/src/pwtools/parse.py: CpmdSCFOutputFile, CpmdMDOutputFile"]}
{"id": "C88", "title": "Phonon modes are read as matdyn.x, ph.x and dynmat.x print them", "statement": "A file of modes (matdyn.modes) gives, for each q-point in order, its coordinates, the frequencies of its 3*natoms modes in 1/cm and for each mode one complex displacement vector per atom, for every spacing and whatever other lines stand in between. A wrong number of atoms raises. A dyn file gives the modes of the q-point which was diagonalized, that is the last one listed, and reading all dyn files gives the same arrays as the file of modes with the same content; a missing file raises. The output of dynmat.x and its .axsf file give the frequencies and the real displacements of all atoms in all modes; the columns of the table of infrared and Raman activities are returned for the columns which exist and None for the others. Also stated: the number of frequencies of a dyn file is not checked, and one frequency line is given to all modes.", "quantifier": "all numbers of atoms and q-points, all values, all spacings, all other lines", "why_tests_cant": "tests read a few stored files of two systems", "anchors": ["/repo/src/pwtools/pwscf.py: read_matdyn_modes, read_dyn, read_all_dyn, read_dynmat, read_dynmat_ir_raman"]}
{"id": "C89", "title": "Gibbs stores at each temperature and pressure the minimum of the fit of G there, and properties derived from it", "statement": "With case '1d', calc_G fits G(V) = Etot + Fvib(T) + P V at every temperature and pressure of the grid and stores at this place the volume of the minimum, the value there, the bulk modulus V G''(V) and the axes at this volume; calc_H does the same with the enthalpy Etot + P V for every pressure. If the fit is exact, the pressure -dF/dV at the stored volume is the given pressure and B is -V dP/dV. If the fit is a linear least squares fit, a higher pressure never gives a larger volume, and the change of G lies between V2 dP and V1 dP. With two axes, the scaling of the energies before the fit does not change the result. alpha is the logarithmic derivative of the stored quantity with respect to T, Cp is T dS/dT with S = -dG/dT in units of kB. No returned array has a cell that was never set. Free energies given by the caller are used and kept, as are other entries of the dict. Three axes (unless case='1d'), unknown cases, '2d' with other than two axes and data which are all the same are refused. What is calculated depends on the fit functions set last, except that the axes are fitted once, with the function set at the first calculation: a later one is ignored. Every result also holds the input: temperatures, pressures, axes, the volumes and total energies at the grid points, under the documented names; calc_F() gives total plus vibrational energies at every grid point and temperature.", "quantifier": "all grids of temperatures and pressures, all grid points, energies and vibrational data, all fit functions, all histories of calls and settings", "why_tests_cant": "tests compare stored results for one data set and a few fit functions; they use a fresh object each time and cannot cover all fits, grids and orders of calls", "anchors": ["/repo/src/pwtools/thermo.py: Gibbs, Gibbs.calc_F, Gibbs.calc_H, Gibbs.calc_G, Gibbs.set_fitfunc"]}
{"id": "C90", "title": "Minima, roots and inverse lookup of 1d fits", "statement": "For every fit with a convex curve on the search interval (that of the data unless one is given) get_min() returns the minimum over the whole interval, and raises exactly if the slope does not change its sign there; get_max() is the same for concave curves. In general only a point with slope zero is found: for a curve with a maximum get_min() returns the maximum without an error. get_root() returns a root, and finds the root of every strictly monotonic curve which has one. Spline.invsplev() inverts strictly monotonic curves, refuses values outside the range of the data, and refuses values which both ends of the interval exceed, even if the curve takes them. is_mono() is true exactly if the values at the data points all rise, all fall or are all the same; it says nothing about the curve between the points, and a curve with a plateau that never falls is not monotonic. Spline() accepts exactly sorted data of equal length which the curve meets to eps at every point. findmin() and findroot() return the point and the value of the spline there.", "quantifier": "all fits, all data and intervals, all root finders which meet their description up to a tolerance", "why_tests_cant": "tests use a handful of curves (sine, parabola) and check one minimum or root each", "anchors": ["/repo/src/pwtools/num.py: Fit1D, Fit1D.get_min, Fit1D.get_max, Fit1D.get_root, Fit1D.is_mono, Spline, Spline.invsplev, findmin, findroot"]}
{"id": "C91", "title": "Comparing structures and talking to spglib", "statement": "A structure of known elements handed to spglib and converted back is the same structure. is_same_struct(a, b) is true exactly if the symbols are equal, volume, cell constants and fractional positions agree to numpy's default tolerances and spglib names the same space group; it is false without asking spglib if the symbols differ; a structure is the same as itself, and as itself in a rotated frame. The comparison is not symmetric (the tolerance is relative to the second structure), takes mirrored cells for the same, and takes a structure with one atom moved by a lattice vector for a different one. spglib_get_spacegroup() returns number and symbol of spglib's text. spglib_get_primitive() returns None exactly if spglib's candidate is the same structure, else the candidate; so an irreducible structure may be answered by another realisation of itself instead of the promised None, and if spglib finds nothing it raises.", "quantifier": "all structures, cells, positions, whatever spglib answers", "why_tests_cant": "tests compare a few structures with the installed spglib", "anchors": ["/repo/src/pwtools/symmetry.py: is_same_struct, spglib2struct, struct2spglib, spglib_get_primitive, spglib_get_spacegroup", "/repo/src/pwtools/crys.py: Structure.get_spglib"]}
{"id": "C92", "title": "Convergence tables", "statement": "conv_table(xx, yy) has one line per entry of xx: the entry, then for each parameter the difference of its value to the next or to the last one (absolute if absdiff), followed by the value itself if orig. It raises exactly if the mode is unknown, yy is empty or ragged, or there are fewer values than entries of xx. The 'next' differences from a line on add up to the 'last' difference; the last line shows zero if there are as many values as lines; a constant added to the values changes nothing. With more values than entries the differences refer to values which are not shown.", "quantifier": "all entries, values, numbers of parameters, modes and formats", "why_tests_cant": "tests print a few tables", "anchors": ["/repo/src/pwtools/batch.py: conv_table"]}
{"id": "C93", "title": "Calling polynomial fits with points of any shape", "statement": "PolyFit1D made from a 1d array evaluates to one best polynomial (or its derivatives) whatever the shape of the points: numbers give numbers, arrays of two or more points and (n,1) arrays give arrays. An array of a single point gives a number, not an array, and the documented (npoints,1) input of the constructor is never accepted. PolyFit and Interpol2D(what='poly') in n dimensions give a number (Interpol2D: an array) for a point and an array for points, refuse points of another dimension, and refuse derivatives for n > 1. get_min() is never worse than the data point with the smallest value. Interpol2D.get_min() without a start point always raises in more than two dimensions, although documented to work.", "quantifier": "all data, degrees, scalings, dimensions and shapes of points", "why_tests_cant": "tests evaluate a few fits of data of two or three shapes", "anchors": ["/repo/src/pwtools/num.py: PolyFit, PolyFit1D, Interpol2D"]}
{"id": "C94", "title": "EOS fits with external programs: first fit, refits, units", "statement": "ExternEOS.fit() on a new object sets ev and pv to the curves of the program, bv to -V dP/dV or V d2E/dV2, and splines through the three, and fails in exactly the cases where the program fails, the method is unknown or a spline cannot be drawn. get_min() then gives the minimum of E(V) (or the zero of P(V)) and the values there. Later calls of fit(), with new data or another bv_method, change ev, pv, bv but never the splines nor get_min() (except for the choice of v0), so these are out of date. get_min(behave='old') has pressure and bulk modulus in the order opposite to the documentation. Volumes are accepted as sorted if any pair rises. ElkEOSFit hands atomic units to eos.x and gives back Ang^3, eV and GPa, independently of natoms; the path of the program is dropped.", "quantifier": "all data, curves returned by the program, histories of fit/get_min/set_bv_method/new data, numbers of atoms, unit constants, program paths", "why_tests_cant": "tests need the external program, and fit once per object", "anchors": ["/repo/src/pwtools/eos.py: ExternEOS, ElkEOSFit", "/repo/src/pwtools/base.py: FlexibleGetters.try_set_attr"]}
{"id": "C95", "title": "Copies are independent, frames and slices share memory", "statement": "copy(), get_traj(), compress(copy=True) and pbc_wrap(copy=True) give objects which show the same values (or those computed from them) and share no memory with the original: after any sequence of changes of either object (elements, attributes, functions with copy=False, set_all) the other one shows what it showed before. The constructor keeps arrays of the caller exactly where the unit is 1 and multiplies into new arrays elsewhere, each attribute once; the arrays of the caller never change. copy() drops units not yet applied. Writing into a frame tr[i] changes the trajectory at that step, the symbols list is shared, pbc_wrap(tr[i], copy=False) changes tr.coords_frac of this step but not tr.coords, and slicing multiplies an array timestep of the trajectory in place.", "quantifier": "all objects, heaps with views into shared buffers, units, histories of changes of the two objects in any order", "why_tests_cant": "sharing shows only when one of the two objects is changed later, in a way no test tries; the claim is about every such history", "anchors": ["/repo/src/pwtools/crys.py: UnitsHandler.apply_units, Structure.copy, Structure.compress, Structure.get_traj, Trajectory.__getitem__, Trajectory.compress, pbc_wrap"]}
{"id": "C96", "title": "Fourier transforms along an axis, Lorentz windows, scaling and FIR filters", "statement": "fft_1d_loop(arr, axis) transforms every line along that axis (0 <= axis < ndim, or -1) of an array of any shape and overwrites all elements of the result; too large an axis is refused; all other negative axes mean the last one, unlike numpy. ezfft gives the values at frequencies k/(N dt), k < N//2; for odd N the highest positive frequency is missing. lorentz(M, std>0) has M points and is the Lorentz function with its largest value scaled to 1; symmetric for sym=True, else the first M of M+1 points for even M. scale(x) maps min to 0, max to 1, linearly, and divides 0 by 0 for constant arrays. FIRFilter cannot build band stop filters; other modes call firwin with the documented arguments, and a call gives the causal sum with the coefficients.", "quantifier": "all array shapes, axes, 1d transforms that keep the length; all M, std > 0; all real arrays; all filter arguments and signals", "why_tests_cant": "tests use one or two shapes and compare with numpy on axis 0, -1; window tests plot", "anchors": ["/repo/src/pwtools/signal.py: fft_1d_loop, ezfft, lorentz, scale, FIRFilter"]}
{"id": "C97", "title": "The header and the MD lines of pw.x output files", "statement": "For a pw.x output file, the parsers return the atom symbols and coordinates of the first table of atomic positions in the header and the cell of the first table of crystal axes (times the lattice parameter unless switched off), the number of k points, the time step, the number of iterations of every self-consistent cycle that converged, and all kinetic energies; without new cells the MD parser returns the cell of the header. For vc-md files kinetic energy, temperature and the constant of motion come from the same lines. A file that ends within the table of atoms is an error. Not as documented: scf_converged is True as soon as one cycle has converged; the starting temperature counts as the temperature of a step, so temperatures move by one against all other quantities; a missing table of atoms or missing vc-md lines are errors instead of None.", "quantifier": "all texts of files with any number of lines, atoms, steps and cycles, in any order, and any reading of numbers", "why_tests_cant": "tests read a few stored files and look at shapes; the shift of the temperatures is in the stored files and not seen", "anchors": ["/repo/src/pwtools/parse.py: PwSCFOutputFile._get_coords_symbols, _get_cell_2d, get_coords, get_symbols, get_cell, get_nkpoints, get_scf_converged, get_nstep_scf; PwMDOutputFile.get_cell, get_ekin, get_temperature, get_timestep; PwVCMDOutputFile"]}
{"id": "C98", "title": "Thermal expansion with the Debye and Einstein functions", "statement": "debye_func(x, nstep, zero) differs from the Debye integral by at most 9 (1-zero)^2 / (2 x (nstep-1)) + 3 zero^3 / x, and so reaches every precision with more points and a smaller lower end; both functions are positive and fall strictly with x. expansion(temp, alpha, theta, x0, func) is computed temperature by temperature, goes to x0 for temperatures near zero, and its slope over x0 goes to alpha for high temperatures (to alpha times a factor within zero^3 + 1/(2 (nstep-1)^2) of one with the trapezoids of debye_func), with bounds on the distance at every temperature. Not as documented: alpha is not the limit of the coefficient of the examples, (1/x) dx/dT, which goes to zero; with one integration point debye_func is zero everywhere.", "quantifier": "all real arguments, numbers of points, lower ends, temperatures and coefficients", "why_tests_cant": "tests evaluate nothing here; error bounds and limits cannot be settled by evaluating at points", "anchors": ["/repo/src/pwtools/thermo.py: debye_func, einstein_func, expansion"]}
{"id": "C99", "title": "Calculators for ASE return energy, forces and stress of the atoms given", "statement": "stress_pwtools2ase returns the six numbers of ASE (xx, yy, zz, yz, xz, xy in eV/Ang^3, negative under pressure) of a symmetric tensor in GPa; find_exe returns the first name found. The Pwscf calculator returns exactly what pw.x computes for the atoms given, for every label and whatever is in the directory, and results can be read again after other calculations with other labels. The Lammps calculator returns the right energy, but forces and stress of the crystal turned so that its cell lies along the axes; they are right if the cell lies along the axes. Not as expected: for every other cell there are atoms with wrong forces; with a label other than lmp there are no results or the forces of another calculation.", "quantifier": "all physical programs (energy invariant, forces and pressure turning with the crystal), cells, atoms, labels, directories and histories of calculations", "why_tests_cant": "tests compare a handful of calculations of the default label in cells along the axes and need the programs installed", "anchors": ["/repo/src/pwtools/calculators.py: find_exe, stress_pwtools2ase, Pwscf.write_input, Pwscf.read_results, Lammps.write_input, Lammps.read_results", "/repo/src/pwtools/parse.py: LammpsTextMDOutputFile.__init__", "/repo/src/pwtools/lammps.py: struct_str"]}
{"id": "C100", "title": "A 2D data set holds the same grid and values in all its forms", "statement": "From the axes x and y the object has X and Y on the grid x times y, xx and yy as the loop over x with y the fast index, and XY their pairs; element i*ny+j of each belongs to x[i], y[j]. Giving x, y or X, Y or xx, yy or XY, with values as Z or as zz, leads to the same object, and copy returns an equal one. A new Z is taken over by update. Not as expected: update drops new xx, yy, X, Y, XY, and a new zz if there is Z; a new axis leaves Z of the old shape; data with x as the fast index is accepted and Z then belongs to other points than X and Y; with a repeated value on an axis xx, yy fail or give a smaller grid.", "quantifier": "all axes, grids and values (any type with equality) and all sequences of ignored keywords of update", "why_tests_cant": "tests use one grid built in the expected order", "anchors": ["/repo/src/pwtools/mpl.py: Data2D", "/repo/src/pwtools/num.py: meshgridt"]}
{"id": "C101", "title": "Functions for files work with names and with open files, and close what they open", "statement": "A function decorated with open_and_close gets a file opened for it if a name is given; after a normal return exactly the files open before are open, and neither other file objects nor the disk changed. With a file object nothing is opened or closed and only that object moves. A 3d array written by writetxt to a name and read by readtxt from it comes back, other files and open files untouched. Not as expected: after an exception the file is left open; names ending in .gz are written uncompressed and cannot be read, nor can really compressed files; reading the same file object again gives an empty array without notice if shape and axis are given, an exception otherwise; writetxt with a wrong axis or an array without dimensions destroys the old file before the exception.", "quantifier": "all functions that only read, all disks, sets of open files, names, arrays, axes and sources of shape and axis", "why_tests_cant": "tests read freshly written files by name once and never look at open handles or at gz names", "anchors": ["/repo/src/pwtools/decorators.py: open_and_close", "/repo/src/pwtools/arrayio.py: readtxt, writetxt, _read_header_config"]}
{"id": "C102", "title": "Lazy properties are computed once; a repeated fit of an equation of state gives the derivatives of the new fit", "statement": "A property made by lazyprop calls its method at the first access that does not raise and returns that value ever after, however the object changes; an exception is not kept; an assigned value is used until deleted. After new volumes and energies and a new fit(), an EosFit gives E(V) and its first two derivatives as a new object would, and a fit that fails leaves the object as it was. Not so for derivatives of order 3 and higher, which come from a lazy spline: once one was used, all later ones belong to the old fit, so they disagree with the lower derivatives after a new fit.", "quantifier": "all objects, methods, sequences of accesses, changes, assignments and deletions; all data, fits and splines", "why_tests_cant": "tests make one object, fit once and look at derivatives once", "anchors": ["/repo/src/pwtools/decorators.py: lazyprop", "/repo/src/pwtools/eos.py: EosFit.fit, EosFit.spl, EosFit.__call__"]}
{"id": "C103", "title": "Trajectories from dcd files have the cells and positions of the run; text dump and dcd file of LAMMPS agree", "statement": "For every LAMMPS run dumped both as text (columns xu yu zu, triclinic box) and as dcd file, the trajectories read from the two files have the same cells and positions, namely those of the run, and lengths, angles, volumes and numbers of steps and atoms are right. For CP2K the positions, lengths, angles and volumes are right and the cell has the same shape, turned along the axes; it is the cell of the run if that lies along the axes. Otherwise cell and positions do not belong together: some atom has fractional coordinates different from those of the run. Without a dcd file nothing is set and nothing raised. The dump of a box without tilts can be read from the dcd file only.", "quantifier": "all boxes, cells, numbers of steps and atoms, positions and headers", "why_tests_cant": "the stored test files are runs with one cell; agreement of formats and orientation must hold for every cell", "anchors": ["/repo/src/pwtools/parse.py: DcdOutputFile, Cp2kDcdMDOutputFile, LammpsDcdMDOutputFile, LammpsTextMDOutputFile", "/repo/src/pwtools/dcd.py: read_dcd_data"]}
{"id": "C104", "title": "Cross validation tests every point with a model that has not seen it; fit_opt returns the model of the best parameters", "statement": "For K folds of equal size the error of FitError is the mean over all points of the squared deviation between the value and the prediction of a model trained on the other folds, and values of the tested points have no influence on the predictions for them. Without cross validation and with r=0 the error of an interpolation is 0 (1 if p is negative). Parameters other than p or p and r, or parameters fixed already, raise. fit_opt returns the model of all data with the optimizer's parameters and the fixed keywords; with an optimizer that never gets worse its fit error is not larger than with the default parameters. Not as expected: fit_opt takes start values, bounds and disp out of the caller's dict, so a second call with the same arguments can give another model.", "quantifier": "all data, splitters, keywords, parameters and optimizers", "why_tests_cant": "tests run a few random data sets and compare errors of one run; leaks of test data or of state between calls need not show", "anchors": ["/repo/src/pwtools/rbf/hyperopt.py: FitError, fit_opt", "/repo/src/pwtools/rbf/core.py: Rbf, estimate_p"]}
{"id": "C105", "title": "The surroundings of an atom as a structure", "statement": "nearest_neighbors_struct returns a structure with the same cell and with exactly the central atom and its neighbours (all within the cutoff, or the num nearest of the species not skipped), in the order of the given structure, every atom with its own position and symbol; distances between these atoms stay the same, and taking the surroundings of the same atom again changes nothing. Not as documented: with an index counted from the end the central atom is missing; without idx (as in the documented example), with both or none of num and cutoff and with fullout=True the call fails.", "quantifier": "all structures, atoms, cutoffs, numbers, species to skip, with and without periodic boundaries, all orders argsort may give to equal distances", "why_tests_cant": "tests look at one structure; missing or misaligned atoms show only for some indices and orders", "anchors": ["/repo/src/pwtools/crys.py: nearest_neighbors_struct, nearest_neighbors, nearest_neighbors_from_dists, distances", "/repo/src/pwtools/num.py: match_mask"]}
{"id": "C106", "title": "Frames of a trajectory have the cell, constants, positions, volume, pressure and time of their step", "statement": "Taking a frame and computing derived attributes can be exchanged: frame i of the attributes of a Trajectory equals the attributes of the Structure made from what was given for frame i, where a cell or cell constants given once count for every frame. All attributes have nstep frames, step i is at i*timestep, and the pressure does not change when the stress is rotated. Data that fits together is always accepted. A number of cells other than 1 and nstep is refused when positions have to be converted, as is a single cell without positions. Not as expected: given both kinds of positions, a trajectory of three steps with two cells is accepted and has two volumes.", "quantifier": "all trajectories: any number of steps and atoms, every combination of given attributes", "why_tests_cant": "tests compare a few trajectories with random data of one shape; wrong broadcasting shows only for particular numbers of steps or combinations of attributes", "anchors": ["/repo/src/pwtools/crys.py: Structure, Trajectory, _extend, _extend_cell, _extend_cc, get_cell, get_cryst_const, get_volume, get_coords, get_coords_frac, get_pressure, get_time, get_nstep, get_natoms, volume_cell3d, cell2cc3d, cc2cell3d"]}
{"id": "C107", "title": "What a database holds after commit, finish, an exception or a kill at any statement", "statement": "Methods of SQLiteDB act on the named table, else on the default table, and on no other; without both they raise. What a program sees is the result of its calls one after the other. Killed at any statement after a commit, the file holds the data as seen at one moment since that commit: committed data is never lost and moments are never mixed; values written since then are lost altogether, new tables and columns are stored at once if no transaction is open. After finish everything but set_table, commit and finish raises. Not as expected: attach_column is not atomic (killed before the commit, the file has the column without values, and the same call then fails), and when fill_column raises, the values written before are stored as soon as the object is deleted.", "quantifier": "all databases, histories of calls, crash points between statements, tables", "why_tests_cant": "tests never kill the process between two statements and look at the file only after a regular end", "anchors": ["/repo/src/pwtools/sql.py: SQLiteDB, set_table, has_table, add_column, fill_column, attach_column, create_table, get_max_rowid, commit, finish, __del__"]}
{"id": "C108", "title": "The input written for sgroup is read as the structure", "statement": "For every structure with six lattice constants, and symbols and lattice type that are words without a slash, sgroup, reading the input by its documented format (comments after a slash, empty lines ignored), finds the lattice type, the lattice constants and all atoms in order with their fractional coordinates, bit by bit. Different structures give different inputs. The call raises exactly if an attribute is not set or a row has the wrong length, and then no file is touched. False beyond that: with fewer coordinates than symbols the input is written but cannot be read, and a symbol is cut at a slash.", "quantifier": "all structures of any number of atoms, symbols, lattice symbols, binary64 numbers, previous files", "why_tests_cant": "tests do not write this input at all, and no test reads back all numbers and texts", "anchors": ["/repo/src/pwtools/io.py: wien_sgroup_input, write_wien_sgroup", "/repo/src/pwtools/common.py: file_write"]}
{"id": "C109", "title": "The mask of inner points leaves out the edge and nothing else", "statement": "inner_points_mask has one entry per point. In one dimension it returns exactly for at least one point in ascending order and leaves out the first and the last point only, so without ties the points kept are those strictly between the ends; with ties a point of the edge can be kept. In other dimensions exactly the points in no simplex of the convex hull are kept.", "quantifier": "all numbers of points, dimensions, coordinates and convex hulls", "why_tests_cant": "tests check a few point sets without ties", "anchors": ["/repo/src/pwtools/num.py: inner_points_mask"]}
