# Formal model of pwtools: design

## Approach

The model is a set of shallow Gallina definitions in `rocq/theories/`. Each area has

* `<Area>.v`: the model, definitions only, each citing the lines of /repo it mirrors;
* `<Area>Spec.v`: a small specification that does not mention the functions of the model
  (it may use the data types of the model);
* `<Area>Proofs.v`: lemmas;
* `P_<Area>.v`: the theorems named `C##_...`, examples that show that their hypotheses are met,
  and `Print Assumptions`.

Conventions:

* Exceptions are values (`None`, or a result type that carries the state reached when the
  exception is raised, where that state is observable).
* Python lists and numpy arrays are lists (or a shape and an index function). In-place mutation
  becomes a returned value, or a heap cell where sharing is the point.
* Floating point numbers are real numbers (`R`), abstract numbers, or integers. Where round-off
  matters for a claim, binary64 is used (SpecFloat for witnesses, Flocq for proofs).
* Nondeterminism of the runtime (iteration order of sets, random numbers, thread schedules, crash
  points, uninitialised memory) is universally quantified.
* A claim the code does not fulfil is proved false (`..._refuted`) with a witness, next to the
  strongest true statement.
* `C##_case`, `C##_ex` and similar examples show that the hypotheses can be met; they are not
  counted as proofs of anything else.

## Trusted base

* Coq 8.16.1: its kernel, and the standard library axioms that `Print Assumptions` reports (listed
  below for every theorem). Libraries used: the standard library, mathcomp, std++, Coquelicot,
  Flocq. No axioms are added, no kernel check is switched off, nothing is admitted.
* The reading of the Python and Fortran sources that the model files make. It was done by hand; no
  code was run. Each definition cites its source lines.
* What is assumed of the environment, each time in the statement or in the model file:
  * SQLite: a transaction is committed atomically; a dropped connection rolls back.
  * File system: operations take effect one at a time, in program order.
  * numpy: indexing, slicing, `repeat`, `concatenate`, `histogram`, `arange`, `savetxt`, `loadtxt`,
    `fromfile` as documented; `argsort` is any sorting permutation; `empty` is any array.
  * LAPACK/scipy: `inv`, `dgesv`, `solve` give exact solutions (symmetric solver: on symmetric
    matrices); `lstsq` gives a minimiser of the residual; `polyfit`, `leastsq`, splines are
    arguments; integration rules are homogeneous (linear where stated).
  * FFT: `fft`, `ifft`, `fftconvolve` are the exact sums.
  * OpenMP: iterations are assigned to threads arbitrarily, reads and writes interleave arbitrarily.
  * h5py/HDF5, configparser, Fortran unformatted records, GNU grep and sed, the LAMMPS dump and log
    formats: from their manuals.
  * Number formatting: a printed number is read back as itself where a theorem says so (`readable`).

## Properties

For each property: what is modelled and how it is proved, the file with the theorems, and notes. The exact theorem names are in `MANIFEST.json`.

* **C01** Calculations are numbered 0..n-1 without gaps or repeats (`P_Batch.v`). Fs.v, Sql.v, Batch.v: write_input is a program over primitive effects on a file tree and a database connection, in source order. A crash can happen between any two effects, after which the open transaction is dropped; an exception ends the program with the commit that SQLiteDB.__del__ does. Invariant over all histories of complete, failing and crashed calls.
* **C02** Revisions count the appends (`P_Batch.v`). Same model as C01, invariant over histories on the revision column.
* **C03** Appending never changes existing rows (`P_Batch.v`). Same model; statement about every prefix of the effect list.
* **C04** Appending never touches old calculation directories (`P_BatchFiles.v`). Same model; statement about every prefix of the effect list of an append. Note: the directory must not be named like a backup for the part about new files
* **C05** backup() never overwrites and always copies (`P_Fs.v`). Fs.v: backup on a finite file tree (gmap); the search loop is a recursion with enough fuel; induction over operation sequences.
* **C06** With backup=True no content is lost (`P_BatchFiles.v`). Same model; invariant over the effect list. Note: names_ok excludes machine directories named like a backup of another one
* **C07** Parameter sets cannot spoof the bookkeeping columns (`P_Batch.v`). Record construction as Python dict semantics (insertion order, last value wins).
* **C08** Database and input files describe the same calculations (`P_BatchFiles.v`). Same model plus the text replacement model of C16. Note: the textual meaning of a filled template is 'substituted' of TemplateSpec.v, under the same conditions on the placeholders as C16
* **C09** run.sh starts the new calculations, excl_push lists the old ones (`P_BatchFiles.v`). Same model; the text of run.sh / excl_push is compared with an independent rendering of the idx list.
* **C10** Failure modes of write_input that leave a half-written study (`P_BatchFiles.v`). Witness executions of the C01 model by computation, general theorem for the table name. Note: the failures themselves; witnesses as reachable states
* **C11** add_column is idempotent and data-preserving (`P_Sql.v`). Sql.v: table = header + rows (column -> value map); direct proofs.
* **C12** fill_column writes exactly the requested cells (`P_Sql.v`). Sql.v: fill_column as a loop with an error outcome carrying the table written so far; induction on the value list.
* **C13** get_dict transposes the result set (`P_Sql.v`). Sql.v: get_dict loop; induction on rows.
* **C14** sql_column and sql_matrix keep values and columns aligned (`P_Sql.v`). Sql.v; induction.
* **C15** Templates lists never leak between calculations (`P_Calcs.v`). Calcs.v: heap of template lists (the mutable default argument is a heap cell); induction over construction sequences; refutation witness. Note: list objects passed explicitly must be the caller's own, i.e. not taken from a calculation made without one
* **C16** template_replace equals simultaneous substitution when placeholders do not interfere (`P_Template.v`). Template.v: Python str.replace on lists of characters; equality with a one-pass simultaneous replacement; refutation witnesses. Note: txt mode only; the printed warnings and dct mode (Python % formatting) are not modelled
* **C17** nested_loops enumerates the product once, last list fastest (`P_Comb.v`). Comb.v: itertools.product and the optional flatten; characterised by mixed-radix index. Note: entries as lists after _ensure_list
* **C18** unique2d keeps the first occurrence of every row (`P_Comb.v`). Comb.v loop model; induction. Note: integer entries; comparing rows of floats without NaN is the same
* **C19** flatten returns the leaves in order (`P_Comb.v`). Comb.v: rose trees of Python values.
* **C20** pop_from_list removes exactly the listed items (`P_Comb.v`). Comb.v.
* **C21** seq2str and str2seq are inverse (`P_Comb.v`). Comb.v: split/join on lists of characters. Note: true for one-character and default separators; multi-character case refuted
* **C22** set_all computes each attribute at most once and never overwrites (`P_Getters.v`). Getters.v: object state = attribute map + execution log; getters are programs in a small effect language (check_set_attr / try_set_attr then compute); rank function for acyclicity; induction on rank. Note: general theorem for getters that ask before they look; the getters of Structure and Trajectory, which do not, have their own theorem (shape assertions and unknown symbols not modelled)
* **C23** Units are applied exactly once (`P_Getters.v`). Units.v: state machine with the units_applied flag. Note: numbers are abstract with x*1=x; a raising getter ends the sequence
* **C24** Class-level dictionaries shared by parsers and calculators leak state (`P_Getters.v`). Classes.v: class-level dictionaries as heap cells shared along the method resolution order; induction over construction histories; witnesses. Note: factors are kept as expressions
* **C25** Trajectory slicing agrees with slicing every array (`P_Traj.v`). Traj.v: trajectory = finite map of attributes, each an array with or without time axis; Python slice.indices in Z. Note: rows of arrays abstract; timestep multiplication exact (hypothesis in C25_slice_twice only)
* **C26** Iterating a trajectory is correct only for one complete, un-nested loop at a time (`P_Traj.v`). Traj.v: iterator state machine; interleavings of next() calls. Note: loop bodies that do not touch the object otherwise; nested loops proved not to terminate
* **C27** concatenate joins the time axis (`P_Traj.v`). Traj.v; induction over the parts. Note: row shapes not modelled; the claim about unset attributes is proved as the code behaves, with C27_concatenate_refuted for the naive step count
* **C28** mix interpolates from the first to the second structure (`P_Traj.v`). Mix.v over the reals. Note: over the real numbers
* **C29** Coordinate transformation round-trips (`P_CoordTrans.v`). CoordTrans.v over any field and dimension (mathcomp matrices), including the Fortran routines. Note: Over any field and any vector length; np.linalg.inv and solve are taken as exact; integer coordinate arrays are not modelled.
* **C30** Minimum image convention (`P_Wrap.v`). Wrap.v: the two while loops over the reals, termination by an archimedean argument; binary64 counterexamples with SpecFloat. Note: Real arithmetic for the positive claims; binary64 non-termination is a refutation computed with SpecFloat.
* **C31** pbc_wrap_coords maps into the cell (`P_Wrap.v`). Wrap.v over the reals; binary64 counterexample with SpecFloat. Note: Real arithmetic for the positive claims; the binary64 case is a refutation computed with SpecFloat.
* **C32** Cell and crystallographic constants are inverse (`P_Cells.v`). Cells.v over R with sqrt, cos, acos. Note: Real arithmetic.
* **C33** Reciprocal cell (`P_Cells.v`). Cells.v over R. Note: Real arithmetic. Left-handed cells get all signs flipped, so duality is refuted for them.
* **C34** Supercells repeat the structure exactly (`P_Scell.v`). Scell.v; every atom of the supercell is one lattice translate, each exactly once. Note: Real arithmetic; symbols are given.
* **C35** Voigt and tensor forms are inverse (`P_Scell.v`). Scell.v. Note: np.empty is an arbitrary array.
* **C36** Nearest neighbours (`P_Neigh.v`). Neigh.v: argsort is any sorting permutation. Note: np.argsort is any sorting permutation.
* **C37** slicetake and sliceput address exactly the selected elements (`P_Nd.v`). Nd.v: n-dimensional arrays as shape + index function. Note: numpy indexing modelled from its documentation; views and copies are not distinguished.
* **C38** num.sum over any set of axes (`P_Nd.v`). Nd.v; refutation for negative axes. Note: Elements of any commutative monoid; floating point addition is not associative and not covered.
* **C39** match_mask selects the positions of the wanted values (`P_Num.v`). Num.v. Note: The comparison is a parameter.
* **C40** Polynomial fit powers and evaluation (`P_Poly.v`). Poly.v, PolySpec.v: exponent lists by characterisation, derivatives with Coquelicot, least squares as a minimiser that is proved to exist. Note: Least squares is taken as "a minimiser of the residual norm", and such a minimiser is proved to exist. Real arithmetic.
* **C41** round_up_next_multiple (`P_Num.v`). Num.v over Z.
* **C42** All autocorrelation methods agree (`P_Signal.v`). Signal.v over R; FFT as the mathematical DFT over complex numbers (pairs of reals). Note: Fourier transforms are exact sums over the complex numbers; every implementation is proved equal to the textbook autocorrelation. A zero signal cannot be normalised.
* **C43** All velocity autocorrelation methods agree, independently of thread scheduling (`P_Vacf.v`). Vacf.v and Omp.v: threads as interleavings of single reads and writes on a shared array; the loops are race free, so every schedule gives the sum of the definition. Note: Threads: every assignment of iterations and every interleaving of reads and writes. Arithmetic is real, except that determinism and termination of the loops are proved for values of any type. An unknown method is refused by the Python version but silently yields zeros in the Fortran one.
* **C44** Zero padding (`P_Pad.v`). Pad.v on arrays of any dimension. Note: Arrays of any dimension over any element type; no axioms.
* **C45** Peak finding (`P_Signal.v`). Signal.v lists over R. Note: Peaks are characterised exactly; the meaning of ymin as a lower bound on peaks is refuted in general and proved where it holds.
* **C46** Smoothing keeps length and constants (`P_Smooth.v`). Smooth.v lists over R; every output value characterised as a convolution of the extended data. Note: Exact characterisation of every output value; length, range, constants and identity kernels proved. Constants fail for mirrored ends and kernels longer than 2N-1 (C46_constant_refuted). fftconvolve is the exact convolution; one-dimensional data.
* **C47** fftsample is its own inverse (`P_Signal.v`). Signal.v over R. Note: All modes are proved mutually inverse; an unknown mode is refused.
* **C48** Text array files round-trip (`P_ArrayIO.v`). ArrayIO.v at the level of text lines, with the parts of savetxt, loadtxt and configparser that are used. Note: Round trip at the level of text lines, header parsing included; numpy.savetxt/loadtxt and configparser modelled from their documentation; the text of a number is a parameter (readable).
* **C49** DCD files: readers agree and truncation is detected (`P_Dcd.v`). Dcd.v: byte-level files and the numpy and Fortran readers; truncation = prefix of the byte list; Flocq for the frame count. Note: Files are byte lists; np.fromfile, Fortran unformatted records (below 2^31-9 bytes) and a zero-size dtype error are modelled from their documentation. Frame counts in binary64 via Flocq round-to-nearest.
* **C50** HDF5 dictionaries round-trip (`P_H5.v`). H5.v: the file is a tree of groups and datasets. Note: h5py/HDF5 modelled from their documentation as a tree of groups and datasets.
* **C51** Random structures respect the minimum distances (`P_Random.v`). Random.v: the random stream is any function to [0,1); loops bounded by the configured maxima. Note: The random stream is any function to [0,1). C51_nearest_image_refuted exhibits a run with the default settings.
* **C52** TagTimer (`P_Timer.v`). Timer.v state machine. Note: The clock is any sequence of readings.
* **C53** k-paths pass through the special points (`P_Kpath.v`). Kpath.v over R. Note: Over the reals.
* **C54** Vinet equation of state (`P_Eos.v`). Eos.v over R, Coquelicot is_derive. Note: Over the reals; polyfit, leastsq and the spline are arguments.
* **C55** Harmonic thermodynamics identities (`P_Thermo.v`). Thermo.v over R, trapezoid/Simpson rule as linear non-negative functional. Note: Over the reals, frequencies positive; NaN handling (fixnan) is not modelled.
* **C56** Bravais lattices from ibrav (`P_Ibrav.v`). Ibrav.v over R; lattices compared as point sets, with the metric of the cells. Note: Real arithmetic; lattice equality as sets of points. An out-of-range cos gamma raises even where it is not needed (hypothesis of the theorems).
* **C57** RBF derivatives (`P_Rbf.v`). Rbf.v over R, Coquelicot is_derive; the solvers are parameters with a contract. Note: The solvers are parameters with the documented contract; the symmetric solver is only assumed correct on symmetric matrices. The literal claim is refuted for all-zero training values (C57_zero_values_refuted).
* **C58** LAMMPS reader (`P_Lammps.v`). Grep.v, Lammps.v: grep, sed and egrep on lists of lines, number parsing, reshaping, triclinic cells; the dump and log are arbitrary files of the documented format. Note: Full pipeline: grep/sed/egrep on the lines, number parsing, reshape, columns by name. Orthogonal boxes refuted for every such dump. Words are assumed free of blanks and of the marks ITEM, --, TOMS, Step, Loop, as the format guarantees.
* **C59** makedb in append mode only appends (`P_Sql.v`). Sql.v: makedb in append mode.
* **C60** A parser gives converted quantities only once (`P_Getters.v`). Units.v: get_cont of a parser as transitions of the units_applied flag.
* **C61** Periodic distances (`P_Wrap.v`). Wrap.v: distsq_frac over the reals, with the exact conditions under which the reported distance is the shortest. Note: Real arithmetic.
* **C62** vlinspace (`P_Num.v`). Num.v. Note: Real arithmetic.
* **C63** norm_int normalises the area (`P_Num.v`). Num.v; the integration rule is any homogeneous functional. Note: Real arithmetic; the integration rule is any homogeneous function.
* **C64** euler_matrix is a rotation (`P_Num.v`). Num.v; rotation matrices over R. Note: Real arithmetic.
* **C65** order_similar (`P_Num.v`). Num.v. Note: Real arithmetic; the quadratic extrapolation through three points is exact.
* **C66** DataND rebuilds the grid (`P_Num.v`). Num.v. Note: Axis values are integers, standing for any ordered numbers.
* **C67** Fourier transforms, mirroring and windows (`P_Signal.v`). Signal.v with Coquelicot's complex numbers. Note: Real and complex arithmetic are exact.
* **C68** Two routes to the vibrational spectrum agree (`P_Pdos.v`). Pdos.v, Signal.v: Wiener-Khinchin for the zero padded sums. Note: Real arithmetic, exact Fourier sums, any integration rule that is homogeneous. full_out is not modelled.
* **C69** Parsers convert to eV, Angstrom, fs, GPa in any history (`P_ParserUnits.v`). ParserUnits.v: default_units dictionaries as process state; induction over construction histories; factors compared with the sizes of the units. Note: Proved for every class and quantity; the exact exception is C69_cp2k_stress, the unrestricted claim is refuted (C69_history_refuted). C24 proves the history-independence part on a model with symbolic factors; here the factors are computed and compared with unit sizes.
* **C70** Radial pair distribution function counts neighbours correctly (`P_Rpdf.v`). Rpdf.v: histogram of all pair distances; perpendicular widths and Cauchy-Schwarz for the uniqueness of the image. Note: Over the reals; the dmask string is an arbitrary predicate; np.histogram from its documentation.
* **C71** Distance matrices do not depend on the thread schedule (`P_Dist.v`). Dist.v, OmpPriv.v: loops as lists of single assignments, threads with private scratch arrays of arbitrary content; an iteration that sets its own elements correctly from any scratch does so in every interleaving.
* **C72** Angles of atom triples (`P_Dist.v`). Dist.v: the triple loop and the masked assignments on arrays of numbers with NaN; acos of the Coq library; Cauchy-Schwarz for the range, addition theorems for the triangle.
* **C73** Velocities, RMSD and mean of a trajectory (`P_TrajStat.v`). TrajStat.v models velocity_traj (with the in-place endpoint copy, and the integer variant), rms, rms3d, rmsd and mean with arbitrary iteration orders of its two set differences. TrajStatSpec.v defines displacement, rigid motion and memory order independently. Cauchy-Schwarz by induction on lists gives the triangle inequality; the mean is proved attribute by attribute, then lifted to atoms for the consistency theorem. Note: Two claims are false as a user would expect them and are proved so: C73_velocity_int_refuted, C73_mean_variable_cell_refuted.
* **C74** align_cart and center_on_atom move structures rigidly (`P_Align.v`). Align.v models argument precedence, numpy inv and allclose with rtol, the construction of the new object and the in-place update order of center_on_atom. Orthonormality of rows is turned into preservation of scalar products by expansion in the axes; the distortion bound uses the Gram identity for two unit vectors and their cross product. Note: Four claims are false as a user would expect them and are proved so: C74_unchecked_refuted, C74_mirror_refuted, C74_center_failed_inplace, C74_center_velocity_refuted.
* **C75** Grids for a target spacing (`P_Grid.v`). Grid.v models the function branch by branch, with numpy rounding to even by integer part; GridSpec.v defines nearest_even by distance only. Monotonicity and uniqueness of nearest_even give the rest. Note: even=True with default minpoints is refuted: C75_even_refuted.
* **C76** Smoothing a trajectory (`P_SmoothTraj.v`). SmoothTraj.v models the loop over the attributes, method 1 (a one-dimensional smooth per column into np.empty_like) and method 2 (one convolution with a kernel of shape (M,1,1)). SmoothTrajProofs.v reduces the convolution of arrays to the one of columns (C46) and proves that smoothing commutes with linear maps.
* **C77** The PDB reader returns exactly the atoms and cell constants written in the file (`P_Pdb.v`). Regex.v is a backtracking matcher in the way of Python's re (continuations, greedy repetition, groups); Pdb.v builds the two patterns of parse.py in it and follows the getters; PdbSpec.v says what a record is. Proved by induction over the lines, with lemmas on what the greedy repetitions try and give back.
* **C78** CIF blocks are read without uncertainties and written structures are read back (`P_Cif.v`). Cif.v follows the getters and the writer over a dictionary (PyCifRW is taken as storing and returning the block), with the two patterns in the matcher of Regex.v. CifSpec.v says what a text with uncertainty and a label denote; the getters are characterised by equivalences, the round trip follows.
* **C79** Floating-point numbers written with 17 digits are read back bit by bit (`P_Decimal.v`). Decimal.v models the formatting and float() as correctly rounded conversions over Flocq's binary64 (single NaN), down to the characters. The gap between binary64 numbers next to x is larger than x*10^-16 (2^53 < 10^16, with the smaller gap below powers of two taken into account), so that rounding the decimal number gives x; digits and exponents by induction over the text.
* **C80** Structures and arrays written as text hold exactly the numbers and symbols given (`P_TextOut.v`). TextOut.v models the writers down to the characters; TextOutSpec.v says what lines, words and frames are, with C79's reading of numbers. Induction over rows and steps; the format %.16e is shown to meet the hypotheses.
* **C81** Species, types, counts, atomic numbers and masses of a structure agree with its symbols (`P_Species.v`). Species.v models np.unique (sort by code points, drop equal neighbours), the dictionaries and the whole periodic table. Sorting proved by induction with the lexicographic order of SpeciesSpec.v; dictionaries by induction over their keys; the table, which is finite data, by computation.
* **C82** LAMMPS data files describe the structure, up to rotation and mirroring (`P_LammpsOut.v`). LammpsOut.v models the text with the species of C81 and number texts of C79 (%.14g and %g are parameters), and the alignment over the real numbers with the cells of C32. Lines and words by induction over atoms and types; distances from the equality of the metric.
* **C83** Frequency files of matdyn.x are read in full, but a truncated file is not noticed (`P_MatdynFreq.v`). MatdynFreq.v models the header with the regex matcher of C77 and the loop over records with out-of-range assignments raising; float() is a parameter. The header is matched for every layout by following the backtracking matcher; rows by induction over the loop.
* **C84** Input files for pw.x describe the structure and settings given (`P_PwIn.v`). PwIn.v models the template line by line with str.format, the sequence kinds with their +, and the choice of files; numbers as in C79/C80, species as in C81; str() of numbers, ASE's kpts2mp grid are parameters. The file is read back by a small specification of namelists and cards.
* **C85** Output files of pw.x runs are read step by step (`P_PwOut.v`). PwOut.v models the grep, sed and awk pipelines on lines (Grep.v, Regex.v), the reshapes and _match_nstep; PwOutSpec.v describes the file as a list of pieces with marks. Readable numbers are a hypothesis; reading of one number is a parameter.
* **C86** Output files of CP2K runs are read step by step (`P_Cp2k.v`). Cp2k.v models the getters with their grep, sed, awk and cut pipelines on lines, and np.loadtxt of tables with the squeeze of one row; Cp2kSpec.v describes trajectory files, tables and outputs by lines and words. Reading of one number is a parameter.
* **C87** Output files of CPMD runs are read as they are written (`P_Cpmd.v`). Cpmd.v models the getters with their grep, tail and awk pipelines on lines and np.loadtxt with comments; CpmdSpec.v describes the files of a run by lines and words. Reading of one number is a parameter.
* **C88** Phonon modes are read as matdyn.x, ph.x and dynmat.x print them (`P_Modes.v`). Modes.v models the readers with their grep, sed and awk pipelines on lines, the regular expressions included; ModesSpec.v describes the files by lines and words. Reading of one number is a parameter.
* **C89** Gibbs stores at each temperature and pressure the minimum of the fit of G there, and properties derived from it (`P_Gibbs.v`). Gibbs.v models the class over dicts of partly set arrays, fits being parameters with their values, derivatives and minima; GibbsSpec.v states what has to be in the arrays and what a good fit is (exact, linear, affine). Loop invariants give the content of every cell.
* **C90** Minima, roots and inverse lookup of 1d fits (`P_Fit1D.v`). Fit1D.v models the classes with the root finders and splrep of scipy as parameters; Fit1DSpec.v says what a root finder does (bisection taken to its limit is shown to do so). Minima follow by the mean value theorem.
* **C91** Comparing structures and talking to spglib (`P_Symmetry.v`). Symmetry.v models symmetry.py with the two spglib functions as parameters about which nothing is assumed; SymmetrySpec.v says what near, rotated and the text of spglib mean.
* **C92** Convergence tables (`P_ConvTable.v`). ConvTable.v models conv_table with formatting as a parameter; ConvTableSpec.v gives each line by its index. Induction over lines and columns.
* **C93** Calling polynomial fits with points of any shape (`P_PolyFit.v`). PolyFit.v models the classes on top of the functions of C40, with lstsq and fmin as parameters with specifications; the polynomial is that of C40.
* **C94** EOS fits with external programs: first fit, refits, units (`P_ExternEos.v`). ExternEos.v: methods as functions on the attributes which keep partial updates when they raise, the program and scipy as parameters; C94_first is an equivalence, histories by induction.
* **C95** Copies are independent, frames and slices share memory (`P_Alias.v`). Alias.v: a heap of buffers, attributes as views; AliasProofs.v: separation as an invariant of two objects, by induction over histories.
* **C96** Fourier transforms along an axis, Lorentz windows, scaling and FIR filters (`P_FftAxis.v`). FftAxis.v on the array model of Nd.v, looping over tuples of indices as the code does; the invariant says which elements have been written. Windows in closed form over R.
* **C97** The header and the MD lines of pw.x output files (`P_PwStart.v`). PwStart.v on top of PwOut.v: grep -m1 -A, tail, sed and awk as functions on lists of lines; the specification lists the lines a run prints.
* **C98** Thermal expansion with the Debye and Einstein functions (`P_Expansion.v`). Expansion.v over R with the trapezoids of Thermo.v; the integral is Coquelicot's RInt; the integrand is Lipschitz with constant 3/x, which bounds the error of every trapezoid.
* **C99** Calculators for ASE return energy, forces and stress of the atoms given (`P_CalcRun.v`). CalcRun.v: a directory is a map from names to contents, the program is a parameter; a program is physical if it commutes with orthogonal maps (a spring model shows that such programs exist). The aligned cell of C82 gives the orthogonal map.
* **C100** A 2D data set holds the same grid and values in all its forms (`P_Data2d.v`). Data2d.v: an object is the record of its nine attributes, update and the constructor end with the same refresh. First occurrences in a nested loop give the axes back (induction); rows of a flat list are found by index.
* **C101** Functions for files work with names and with open files, and close what they open (`P_FileNames.v`). FileNames.v: a world is a disk and a list of file objects (lines, position, open or not); readtxt on a file object is the model of C48 with a position. Invariants of the list of file objects; the round trip follows from C48.
* **C102** Lazy properties are computed once; a repeated fit of an equation of state gives the derivatives of the new fit (`P_Lazy.v`). Lazy.v: an object is its attributes, a cache and a count of calls; histories are lists of operations. Induction over histories; fits and splines are parameters.
* **C103** Trajectories from dcd files have the cells and positions of the run; text dump and dcd file of LAMMPS agree (`P_DcdTraj.v`). DcdTraj.v on top of the models of C49 (bytes of the file), C58 (text dump) and C32 (cells from lengths and angles). DcdTrajSpec.v says what the programs store. The conversion of angles is a parameter that gives degrees.
* **C104** Cross validation tests every point with a model that has not seen it; fit_opt returns the model of the best parameters (`P_HyperOpt.v`). HyperOpt.v on top of the model of Rbf (C57). Splitters and optimizers are parameters; the dict of keywords is threaded through fit_opt. Sums over folds are rearranged with permutations.
* **C105** The surroundings of an atom as a structure (`P_NeighStruct.v`). NeighStruct.v joins the models of distances (C71), nearest_neighbors_from_dists (C36) and match_mask (C39); argsort is any function that sorts. The specification NeighStructSpec.v speaks of parts of a structure and distances of its atoms.
* **C106** Frames of a trajectory have the cell, constants, positions, volume, pressure and time of their step (`P_TrajFrames.v`). TrajFrames.v models the getters with numbers for a structure and for a trajectory, with the extension of cells. The main theorem is a commuting square between both.
* **C107** What a database holds after commit, finish, an exception or a kill at any statement (`P_SqlConn.v`). SqlConn.v: data on disk and open transaction, methods as sequences of statements, on top of the tables of C11 and C12; a crash keeps what is on disk. Induction over statements and calls.
* **C108** The input written for sgroup is read as the structure (`P_Wien.v`). Wien.v: the text character by character with the numbers of C79; WienSpec.v: a reader for the format of sgroup's README. Induction over lines and atoms.
* **C109** The mask of inner points leaves out the edge and nothing else (`P_InnerPoints.v`). InnerPoints.v: the mask with its assignments; the convex hull of scipy's Delaunay as an oracle that gives simplices of indices in range. Induction over the points and the indices.

## Model files

* `Alias.v`: Which objects share memory: copy, get_traj, slicing, compress, pbc_wrap and the constructor of Structure and Trajectory, /repo/src/pwtools/crys.py 814-836, 2127-2191, 2281-2457, 2489-2528, 2870-2889, 2938-2974, 2997-3018. Attributes which are mutable (arrays, lists, dicts) are references to buffers in a heap; arrays may be views of a part of a buffer. Simplified: real numbers stand for floats; of the getters called by set_all only the one for coords is modelled (the others create new arrays, or return what is there); dicts and lists are flat; indices of time steps are not negative (C25 has these).
* `Align.v`: Model of align_cart, /repo/src/pwtools/crys.py 3272-3353, and center_on_atom, 2110-2120. Real arithmetic. An array with one entry per frame is the list of its frames; a Structure is modelled with one frame. Of the attributes of a Structure or Trajectory those that the two functions read or recompute are fields, all others are in [other].
* `ArrayIO.v`: Model of writetxt and readtxt, /repo/src/pwtools/arrayio.py, with the parts of numpy.savetxt, numpy.loadtxt and configparser they use. A file is the list of its lines, without the line ends. numpy and configparser are modelled from their documentation.
* `Batch.v`: Model of src/pwtools/batch.py: Machine, FileTemplate, Calculation and ParameterStudy.write_input, on the file tree and database of Fs.v and Sql.v. Definitions only.
* `BatchExample.v`: A concrete study used to show that hypotheses of the theorems can be met.
* `CalcRun.v`: The calculators for ASE: find_exe, stress_pwtools2ase, Pwscf and Lammps write_input and read_results, /repo/src/pwtools/calculators.py 61-87, 270-320, 385-425. Real numbers. The files of a calculation are in one directory, a map from file names to contents; a content is what the program reads from or writes to the file (the texts are the matter of C82, C84, C85 and C58). The program (pw.x, lmp) is a parameter. backup=True only adds copies under other names (C05).
* `Calcs.v`: Model of the template lists of Calculation objects (src/pwtools/batch.py:256-329) as objects on a heap: lists are shared by reference, and the default argument templates=[] (line 282) is one list object for all calls.
* `Cells.v`: Model of angle, volume_cell, volume_cc, cell2cc, cc2cell, recip_cell, cc2celldm and celldm2cc, /repo/src/pwtools/crys.py:25-34, 42-79, 100-123, 145-176, 197-249, 271-309, 452-498, over the real numbers.
* `Cif.v`: Model of CifFile, /repo/src/pwtools/parse.py 325-428, and of write_cif, /repo/src/pwtools/io.py 105-153. PyCifRW is taken as storing the block that is written and giving it back when the file is read: a data block is a dictionary from names to a text or, for the columns of a loop, a list of texts. Names are compared as they are (PyCifRW ignores case).
* `Classes.v`: Model of dictionaries stored in classes: default_units of the parsers (/repo/src/pwtools/parse.py) and default_parameters of the calculators (/repo/src/pwtools/calculators.py:91-108).
* `Comb.v`: Model of the sequence helpers in src/pwtools/comb.py and src/pwtools/common.py. Definitions only.
* `ConvTable.v`: Convergence tables, /repo/src/pwtools/batch.py conv_table 617-695. Real numbers stand for floats. None is an exception. Formatting with ffmt and sfmt is a parameter: what the format strings make of a number or of an entry of xx. Not modelled: format strings which are invalid or which hold more than one directive; boolean and unsigned yy.
* `CoordTrans.v`: Model of coord_trans, /repo/src/pwtools/crys.py:839-955, coord_trans3d 958-1008, and of frac2cart, cart2frac, frac2cart_traj, cart2frac_traj, /repo/src/_ext_src/flib.f90:553-603, for vectors of any length M over any field. Simplified: the axes of [coords] other than that of the vectors are flattened to one; copying and integer arrays, whose results would be truncated, are not modelled; scipy's inv and LAPACK's dgesv are taken to be exact.
* `Cp2k.v`: parse.Cp2kSCFOutputFile, Cp2kMDOutputFile and Cp2kRelaxOutputFile, /repo/src/pwtools/parse.py 1740-2043. A file is the list of its lines, None when it does not exist. [parse] is the reading of one number; real arithmetic stands for floats. The outer None is an exception; a getter that returns None gives Some None. Not modelled: timestep, volume; natoms of an MD run is the argument [natoms] where it comes from another file.
* `Cpmd.v`: parse.CpmdSCFOutputFile and CpmdMDOutputFile, /repo/src/pwtools/parse.py 1175-1738. A file is the list of its lines, None when it does not exist. [parse] is the reading of one number; real arithmetic stands for floats. The outer None is an exception; a getter that returns None gives Some None. Not modelled: nkpoints, nstep_scf, timestep.
* `Data2d.v`: Data2D, /repo/src/pwtools/mpl.py 316-505, and num.meshgridt (num.py 1772-1787). A 2d array is the list of its rows, XY a list of pairs; numbers of x and y (not nan) are compared exactly. None is an exception. Other attributes and unknown keys (an assertion) are not modelled.
* `Dcd.v`: Model of the readers for DCD trajectory files: src/pwtools/dcd.py (numpy readers) and src/_ext_src/dcd.f90 (Fortran reader used by [read_dcd_data_f]). A file is a list of bytes, each an integer. Floating-point words are never computed with, so a word is the list of its bytes: eight for a float64, four for a float32. [convang] turns a cosine into degrees; this is the parameter [deg], the same in all readers. An exception (or a Fortran [stop] / runtime error) is [None].
* `DcdFloat.v`: The number of frames in [read_dcd_data] (dcd.py line 195) is a quotient of binary64 numbers. Rounding to the nearest binary64 number, ties to even, as IEEE 754 division does.
* `DcdTraj.v`: Model of DcdOutputFile, Cp2kDcdMDOutputFile and LammpsDcdMDOutputFile (src/pwtools/parse.py 2046-2120 and 2469-2510): what a trajectory read from a dcd file contains. Numbers in the file are bytes, [val] is the number they stand for; over the real numbers.
* `Decimal.v`: Floating-point numbers as text: "%.{p}e" % x, used with p = 16 by frepr (common.py 193-222), str_arr (263-314), write_cif (io.py 116, 141) and wien_sgroup_input (io.py 72-79), with p = 18 by numpy.savetxt in arrayio.py, and float(), used by all parsers. Both are those of CPython: the text is the decimal number of p + 1 digits nearest to x, ties to even, and float() gives the binary64 number nearest to the decimal number, ties to even. NaNs are one value.
* `Dist.v`: Model of the distance and angle routines: distsq, angles, distsq_frac, distances_traj in /repo/src/_ext_src/flib.f90 315-513, distances, distances_traj, angles in /repo/src/pwtools/crys.py 1803-1942 and distsq in /repo/src/pwtools/num.py 991-1029. An array is a function of its index tuple (0-based). Real arithmetic; [None] among numbers is NaN. Every assignment to an array element is a step of its own, in the order of the loops.
* `DistTraj.v`: One iteration of distances_traj on its own
* `Eos.v`: Model of the Vinet equation of state and [EosFit], src/pwtools/eos.py lines 22-233, over the real numbers. Volumes are positive. [np.polyfit(.., 2)], [leastsq] and the fallback spline are arguments.
* `Expansion.v`: debye_func, einstein_func and expansion, /repo/src/pwtools/thermo.py 761-828, over the real numbers: no overflow of exp, and division by zero is not used. A number for x is an array of one element (np.atleast_1d); a 2d array raises and is not modelled.
* `ExternEos.v`: ExternEOS and ElkEOSFit, /repo/src/pwtools/eos.py 236-577, with try_set_attr of base.py 190-231. Real arithmetic stands for floats. None is an exception; an operation which raises leaves behind the attributes it has set before. The fitting program (what _fit has read from its files) and the root finders and splrep of scipy are parameters. Simplified: an attribute which is not there is one that is None, the numbers in the input file of eos.x are not rounded, printing is left out.
* `FftAxis.v`: fft_1d_loop, ezfft, lorentz, scale and FIRFilter of /repo/src/pwtools/signal.py 155-204, 316-356, 858-876, 879-971. Floats are real numbers. Simplified: fft, kaiserord, firwin and freqz of scipy are parameters, lfilter is given by its documentation for a denominator 1; np.empty has contents [junk]; arrays for scale are not empty (min() of an empty array raises, here None).
* `FileNames.v`: Model of decorators.open_and_close (src/pwtools/decorators.py 8-68) and of files given by name or as object to arrayio.readtxt and writetxt (src/pwtools/arrayio.py 17-205). Files that are not closed by the code stay open; the garbage collector is not modelled.
* `Fit1D.v`: Fit1D and Spline, /repo/src/pwtools/num.py 160-416. Real arithmetic stands for floats. None is an exception. The root finders and splrep of scipy are parameters. Simplified: derivatives of any order can be asked for (splev refuses orders above the degree).
* `Fs.v`: Programs with effects on a file tree and a database connection, and the file operations of src/pwtools/common.py used by batch.py. Definitions only.
* `Getters.v`: Model of FlexibleGetters, /repo/src/pwtools/base.py:11-330.
* `Gibbs.v`: Gibbs: thermodynamic properties on a T-P grid, /repo/src/pwtools/thermo.py 252-758. Real arithmetic stands for floats. None is an exception. Simplified: broadcasting of arrays of length one is an exception; a division by zero in the scaling (584) makes nan, on which the fit raises: an exception; other divisions by zero are not tracked. After an exception the object and the dict are not described. Arrays in the result are values, not references.
* `Grep.v`: The shell tools the parsers in /repo/src/pwtools/parse.py send files through, on files given as lists of lines, with fixed strings as patterns: modelled from the manuals of GNU grep and sed.
* `Grid.v`: Model of grid_in_cell and kgrid, /repo/src/pwtools/crys.py 312-440. Real arithmetic.
* `H5.v`: Model of [write_h5] and [read_h5], src/pwtools/io.py lines 251-311. h5py and HDF5 are modelled from their documentation: a file is a tree of groups and datasets; [fh[key] = val] creates the groups on the way and raises if the name exists or the way leads through a dataset; [visititems] visits every object once, with its path relative to the root without a leading slash. The order of the visit is not modelled (the result is a dict). An array or number is stored as it is; text is stored as utf-8 bytes. A '.' in a key, attributes, links and open file handles are not modelled.
* `HyperOpt.v`: Choice of the parameters of radial basis functions: FitError and fit_opt (src/pwtools/rbf/hyperopt.py), with the model of Rbf (Rbf.v). None is an exception or a result with nan or inf. scikit-learn's splitters and scipy's optimizers are parameters; p="scipy" and the keyword fit are left out.
* `Ibrav.v`: pwscf.ibrav2cell: primitive cells of the Bravais lattices from PWscf's ibrav and celldm (src/pwtools/pwscf.py 530-678). Real arithmetic stands for floats. None is any exception: a needed entry that is None (UnboundLocalError, TypeError), math.acos or math.sqrt outside their domain (ValueError), division by zero, an unknown ibrav.
* `InnerPoints.v`: inner_points_mask (/repo/src/pwtools/num.py 1171-1197). Points are rows of real numbers.
* `Kpath.v`: Model of [vlinspace] (src/pwtools/num.py lines 48-74), [kpath] and [get_path_norm] (src/pwtools/kpath.py lines 4-56) over the real numbers. A 1d array is a list, a 2d array a list of rows; an exception is [None].
* `Lammps.v`: parse.LammpsTextMDOutputFile (/repo/src/pwtools/parse.py 2122-2466): the getters that read the dump file and the thermo output. The files exist; a file is the list of its lines. [parse] is the reading of one number (np.fromstring, np.loadtxt); real arithmetic stands for floats. The outer None is an exception; getters that return None give Some None.
* `LammpsOut.v`: LAMMPS data files: lammps.struct_str (/repo/src/pwtools/lammps.py 6-52), io.write_lammps (/repo/src/pwtools/io.py 228-249) and the reader of the file of symbols (/repo/src/pwtools/parse.py 2414-2416). The texts of "%.14g" and "%g", and the first line with the date, are parameters.
* `Lazy.v`: Model of decorators.lazyprop (src/pwtools/decorators.py 98-114) and of the EosFit object that uses it (src/pwtools/eos.py 142-202) over a history of attribute assignments, fits and calls.
* `MatdynFreq.v`: read_matdyn_freq, /repo/src/pwtools/pwscf.py 430-527. float() is a parameter.
* `Mix.v`: Model of mix, /repo/src/pwtools/crys.py:3230-3269, over the real numbers. Arrays are lists of lists; empty arrays need no care as no axis is reduced.
* `Modes.v`: Phonon modes: read_matdyn_modes, read_dyn, read_all_dyn, read_dynmat and read_dynmat_ir_raman, /repo/src/pwtools/pwscf.py 161-434. A file is the list of its lines. [parse] is the reading of one number; real arithmetic stands for floats, pairs for complex numbers. None is an exception (a missing file makes grep print to stderr, and backtick raises).
* `Nd.v`: Model of slicetake, sliceput, extend_array and sum, /repo/src/pwtools/num.py:419-725, on arrays of any dimension. numpy's basic indexing, repeat and sum along one axis are modelled from their documentation. Views and copies are not distinguished.
* `Neigh.v`: Model of nearest_neighbors_from_dists, /repo/src/pwtools/crys.py:1947-1998.
* `NeighStruct.v`: Model of nearest_neighbors and nearest_neighbors_struct, /repo/src/pwtools/crys.py:2001-2107, on top of nearest_neighbors_from_dists (Neigh.v), distances (Dist.v) and match_mask (Num.v). Real arithmetic. [None] is an exception.
* `Num.v`: Models of small functions of /repo/src/pwtools/num.py: vlinspace 48-74, norm_int 77-111, DataND 1032-1106, match_mask 1600-1662, order_similar 1665-1753, round_up_next_multiple 1756-1762, euler_matrix 1790-1839. Real arithmetic instead of floating point.
* `Omp.v`: Model of an OpenMP parallel loop as flib.f90 uses it: [!$omp parallel / !$omp do] over an index [t], whose body is a sequence of updates [c(t) = f(c(t))] of cells of a shared array (/repo/src/_ext_src/flib.f90 196-207, 212-223, 253-258, 281-285). Every update is two machine steps, reading the cell into a register and writing the result back. The steps of the threads interleave in any order. The assignment of iterations to threads is arbitrary (static, dynamic, guided, any number of threads). The loop variables of the inner loops are private, as OpenMP prescribes for Fortran.
* `OmpPriv.v`: OpenMP loops whose iterations use scratch arrays: [!$omp parallel private(...)] and [!$omp do] (/repo/src/_ext_src/flib.f90 323-331 and 504-513). An iteration is a list of assignments, either to the scratch arrays ([Loc]) or of one element of the shared result array, computed from the scratch arrays ([Put]). An assignment is one machine step: it reads scratch arrays and constant input only. The steps of the threads interleave in any order, the assignment of iterations to threads is arbitrary, and the scratch arrays start with arbitrary content.
* `Pad.v`: Model of pad_zeros, /repo/src/pwtools/signal.py:208-297, on arrays of any dimension.
* `ParserUnits.v`: The unit factors of the parser classes (/repo/src/pwtools/parse.py): class attributes [default_units] are dictionaries that __init__ of some classes changes in place, so they are part of the state of the process. One state, any sequence of constructions.
* `Pdb.v`: Model of PDBFile, /repo/src/pwtools/parse.py 431-535. [parse] is the reading of one number (astype(float)), [None] the ValueError.
* `Pdos.v`: Model of pdos, /repo/src/pwtools/pydos.py 173-322, without full_out. Velocities are functions of step, atom and component with nstep steps, as in Vacf.v. The FFT is the exact discrete Fourier sum; num.norm_int integrates with [func].
* `Poly.v`: Model of the n-dimensional polynomial fit: poly_powers, vander, polyfit and polyval of /repo/src/pwtools/num.py 1213-1428, and the numpy functions polyder and polyval they call. Simplifications. - Floats are real numbers; arrays are lists (of rows). - [numpy.linalg.lstsq] is a parameter; what is assumed of it is the specification [least_squares] of PolySpec.v. - A division by zero, which gives nan or inf in numpy and an error or nan from lstsq, makes the model return [None].
* `PolyFit.v`: The classes PolyFit, PolyFit1D and Interpol2D (what='poly' and a generic interpolator), /repo/src/pwtools/num.py 728-970, 1431-1597. Real arithmetic stands for floats. None is an exception. Arrays are distinguished by their dimension. Not modelled: keywords, interpolators of scipy.
* `PwIn.v`: Input files for pw.x: atspec_str, kpoints_str, kpoints_str_pwin, kpoints_str_pwin_full, bool2str (/repo/src/pwtools/pwscf.py 88-159) and Pwscf.write_input (/repo/src/pwtools/calculators.py 184-313) with fill_infile_templ (108-113). Exceptions are None.
* `PwOut.v`: parse.PwSCFOutputFile and parse.PwMDOutputFile, /repo/src/pwtools/parse.py 540-1133: the getters of energies, stresses, forces, positions and cells from the text a pw.x run prints. A file is the list of its lines. [parse] is the reading of one number (np.fromstring, np.loadtxt, float); real arithmetic stands for floats. The outer None is an exception; a getter that returns None gives Some None. The other getters are in PwStart.v; verbose() is left out.
* `PwStart.v`: parse.PwSCFOutputFile, PwMDOutputFile and PwVCMDOutputFile, /repo/src/pwtools/parse.py: the structure in the header of a pw.x output file (725-755, 774-818), the number of k points and the state of the self-consistent cycles (718-723, 826-840), kinetic energy, temperature and time step of an MD run (1094-1115, 1136-1172). As in PwOut.v a file is the list of its lines, [parse] reads one number, the outer None is an exception.
* `Random.v`: Model of [RandomStructure], src/pwtools/random.py lines 15-256, over the real numbers. The random number generator is a stream [u] of numbers in [0,1); a position in the stream is threaded through the calls. [volume_cc] and [cc2cell] are those of Cells, [_flib.distsq_frac] that of Wrap.
* `Rbf.v`: Radial basis function networks: pwtools.rbf.Rbf (src/pwtools/rbf/core.py), without jax. Points are lists of coordinates, arrays of points lists of lists, real arithmetic stands for floats. None is a failed assertion, an exception, or a result that contains nan or inf.
* `Regex.v`: Regular expressions as matched by the re module of Python: the first match found by backtracking, from left to right. Modelled from its documentation, for the operators used in /repo/src/pwtools/parse.py; text is ASCII.
* `Rpdf.v`: Model of rmax_smith and rpdf, /repo/src/pwtools/crys.py 1043-1073 and 1076-1580, over the real numbers. An array of shape (nstep, natoms, 3) is the list of the steps, each the list of its atoms. None is an exception or a result with nan or inf.
* `Scell.v`: Model of scell_mask and scell, /repo/src/pwtools/crys.py:505-659, and of tensor2voigt, voigt2tensor and their 3d versions, 3356-3453.
* `Signal.v`: Model of the autocorrelation, Fourier and peak functions of /repo/src/pwtools/signal.py 13-364, 396-581 and of the subroutine acorr of /repo/src/_ext_src/flib.f90 290-313. Simplifications. - Floats are real numbers, numpy's complex numbers are Coquelicot's [C]. - [scipy.fftpack.fft] and [ifft] are the discrete Fourier transform and its inverse. - [v[i]] is [nth i v 0]; the loops stay inside the array. - Dividing by [c[0] = 0] gives nan in numpy: the model returns [None].
* `Smooth.v`: Model of smooth, /repo/src/pwtools/signal.py:584-840, for one-dimensional data and kernels. For more dimensions the code is used with kernels of length 1 along all other axes, which treats every line of the data along [axis] in this way. fftconvolve(sig, kk, 'valid') is the exact convolution. pad_zeros appends or prepends zeros (C44). Dividing by a kernel sum of zero gives no result (numpy: inf, nan).
* `SmoothTraj.v`: Model of smooth, /repo/src/pwtools/crys.py 3145-3227, and of signal.smooth (signal.py 802-840) for data of more than one dimension with a kernel of shape (M,1) or (M,1,1). Real arithmetic, timeaxis 0. An array is the list of its frames, a frame the list of its numbers in memory order: the axes of an array of shape (nstep,natoms,3) other than the first are treated as one, as the kernel has length one along both; numbers per time step are frames of length one.
* `Species.v`: Species of a structure: get_symbols_unique, get_order, get_typat, get_znucl_unique, get_znucl, get_ntypat, get_nspecies, get_mass, get_mass_unique (/repo/src/pwtools/crys.py 2732-2816) and the periodic table (/repo/src/pwtools/atomic_data.py). Symbols are strings of 8-bit characters, masses the decimal numbers of the source, not rounded to binary64. KeyError is None.
* `Sql.v`: Model of src/pwtools/sql.py: SQLEntry, the column and table operations of SQLiteDB, get_dict, sql_column, sql_matrix, makedb. Definitions only.
* `SqlConn.v`: Model of the connection of an SQLiteDB object, /repo/src/pwtools/sql.py: __init__ 211-225, _get_table, set_table, get_table 227-248, execute 250-252, has_table 265-268, the methods add_column 284-300, fill_column 333-381, attach_column 383-415, create_table 434-446 as sequences of sqlite statements, get_max_rowid 323-331, commit, finish, __del__ 500-511. Python's sqlite3 module (default settings, Python 3.6 and later) opens a transaction before INSERT and UPDATE; ALTER TABLE and CREATE TABLE do not open one and take effect on disk at once unless a transaction is open. Table names are compared exactly. Rows are not deleted.
* `StructGetters.v`: Model of the getters of Structure and Trajectory, /repo/src/pwtools/crys.py:2528-2800 as getters of FlexibleGetters. Simplified: the numbers are not modelled, only which function is applied to which attributes; the assertions about array shapes (2600-2606, 2626-2632) and lookups of unknown chemical symbols are taken to succeed.
* `Symmetry.v`: Interface to spglib, /repo/src/pwtools/symmetry.py, and Structure.get_spglib, crys.py 2891-2893. Real arithmetic stands for floats. None is an exception. Structures have symbols, a cell and fractional coordinates; other attributes are calculated from these. Simplified: fractional coordinates of a different number of atoms cannot be compared, here an exception. Keywords for spglib are not modelled.
* `Template.v`: Model of common.template_replace in txt mode (src/pwtools/common.py:380-481), common.frepr (193-222) and common.file_template_replace (484-509). Definitions only.
* `TextOut.v`: Structures as text: str_arr and fix_eps (/repo/src/pwtools/common.py 243-314), atpos_str and atpos_str_fast (/repo/src/pwtools/pwscf.py 11-85), write_xyz and write_axsf (/repo/src/pwtools/io.py 156-225), lammps.struct_str (/repo/src/pwtools/lammps.py 6-52). Numbers are binary64; the functions return the text that is written to the file.
* `Thermo.v`: Model of [HarmonicThermo] and of the grids of [Gibbs], src/pwtools/thermo.py lines 16-250 and 605-722, over the real numbers. Frequencies are positive where the formulas are used; NaNs and [fixnan] are not modelled. The temperature axis is a list; the integrator is an argument, [trapz] the default.
* `Timer.v`: Model of [TagTimer], src/pwtools/timer.py lines 3-128. Tags are any type with decidable equality (hashable objects), times any type with a subtraction; [time()] is an argument of every call that may read the clock. Printing with [silence=True] is left out: the printed time is the result.
* `Traj.v`: Model of Trajectory.__getitem__, __iter__, __next__, struct2traj and concatenate, /repo/src/pwtools/crys.py:2338-2408, 2870-2889, 2935-2982, 3037-3096. Simplified: an array with a time axis is the list of its rows; the shapes of the rows are not modelled (np.concatenate also checks these).
* `TrajFrames.v`: Model of what Structure and Trajectory compute from the arrays given to them: _extend, _extend_array, _extend_cell, _extend_cc, get_natoms, get_coords, get_coords_frac, get_volume, get_cell, get_cryst_const, get_pressure, get_time, get_nstep, /repo/src/pwtools/crys.py:2447-2487, 2570-2730, and volume_cell3d, cell2cc3d, cc2cell3d 82-96, 179-193, 252-267 along the time axis 0. Real arithmetic. [None] for the whole object is an exception in the constructor (set_all); [None] for an attribute is Python's None. Simplified: no units (C23, C69); velocity, ekin and temperature are in TrajStat.v.
* `TrajStat.v`: Model of functions that evaluate trajectories: velocity_traj, rmsd and mean in /repo/src/pwtools/crys.py 673-764 and 3099-3142, and rms, rms3d in /repo/src/pwtools/num.py 1109-1168 (rms3d for axis 0, the time axis). Real arithmetic. An array with a time axis is the list of its frames, a frame the list of its numbers in memory order.
* `Units.v`: Model of UnitsHandler (/repo/src/pwtools/crys.py:2127-2191), of Structure.set_all (2444-2478) and of StructureFileParser.get_cont (/repo/src/pwtools/parse.py:249-308).
* `Vacf.v`: Model of the velocity autocorrelation functions: pyvacf in /repo/src/pwtools/pydos.py 22-72, fvacf in the same file 75-170, and the Fortran subroutines vacf and vect_loops in /repo/src/_ext_src/flib.f90 155-285. An array [vel] of shape (nstep, natoms, 3) is a function of step, atom and component. Arithmetic is that of the reals, so the order in which numpy and Fortran add up does not matter; dividing by [c[0] = 0] gives no result (numpy: nan).
* `Vec3.v`: Vectors and 3x3 matrices of real numbers as the code uses them: numpy's dot, cross, linalg.norm, linalg.det and np.dot(vector, matrix).
* `Wien.v`: Input of the symmetry analysis tool sgroup: wien_sgroup_input and write_wien_sgroup (/repo/src/pwtools/io.py 25-98), file_write (/repo/src/pwtools/common.py 353-359). Numbers are binary64; an exception is None.
* `Wrap.v`: Model of pbc_wrap_coords, /repo/src/pwtools/crys.py:767-811, min_image_convention, 1011-1039, and distsq_frac, /repo/src/_ext_src/flib.f90:388-454, over the real numbers. An array is the list of its entries, or of its rows; copying is not modelled.

## Claims that are false of the code

Each of these is a proved refutation with a witness; the strongest true statement is proved beside it.

* `C95_units_lost_refuted`: Structure.copy() and Trajectory.copy() forget units: units which have not been applied before the copy are never applied to it
* `C95_frame_refuted`: Writing into an array of a frame tr[i] changes the trajectory: frames are views
* `C95_symbols_refuted`: The list of symbols of a frame is the list of the trajectory
* `C95_wrap_frame_refuted`: pbc_wrap(tr[i], copy=False) changes tr.coords_frac of that step but not tr.coords, the two disagree afterwards
* `C95_timestep_refuted`: tr[a:b:c] changes tr.timestep itself if it is an array (in-place product)
* `C74_unchecked_refuted`: Without the check oblique x and y are taken and distances change, and the cart argument may be a mirror.
* `C74_mirror_refuted`
* `C74_center_velocity_refuted`: In a trajectory the velocities are not those of the new coordinates.
* `C10_killed_study_is_stuck_refuted`: a study killed between the creation of the table and the commit leaves an empty table.
* `C10_two_types_refuted`: one key with values of two types: the call raises after input files were written, and nothing is in the database.
* `C99_frame_refuted`: the Lammps calculator returns forces and stress in the frame of the cell turned along the axes, not in that of the atoms: wrong for every cell that is not lower triangular with positive diagonal
* `C99_label_refuted`: the Lammps calculator with a label other than lmp never reads its own dump file: no results, or the forces of an old lmp.out.dump together with the new energy and stress
* `C15_default_argument_refuted`: So the claim "a calculation has the templates it was given and its machine's" is false for them.
* `C33_dual_refuted`: for a left-handed cell the reciprocal cell is the negative of the dual basis.
* `C78_digits_refuted`: A symbol with a digit, as for an isotope or a numbered species, does not come back.
* `C78_unlooped_refuted`: One atom given without a loop: the getters run over the characters of the texts. Here the structure has the one atom Al at (0, 0, 0), and the reader gives two symbols for it.
* `C21_multichar_separator_refuted`: A separator of several characters can meet a piece of an item.
* `C92_hidden_refuted`: conv_table() silently accepts more values than entries of xx and then compares with values it does not show
* `C86_one_step_refuted`: files of a CP2K run with one step cannot be read: the table becomes a 1d array.
* `C86_two_energies_refuted`: a CP2K single point output with two energies raises.
* `C87_force_sign_refuted`: CPMD prints gradients, "(-FORCES)" in the heading; the SCF parser returns them as forces without a change of sign.
* `C87_ekin_refuted`: ekin of a CPMD run is column ECLASSIC, which is the potential energy plus the kinetic energy of the ions.
* `C87_econst_refuted`: econst of a CPMD Lanczos run is the potential energy, not the conserved ECLASSIC.
* `C87_one_step_refuted`: ENERGIES of a CPMD run with one step cannot be read: the table becomes a 1d array.
* `C87_single_refuted`: TRAJECTORY of one atom and one step cannot be read.
* `C87_gap_refuted`: a line between two blocks of the CPMD files CELL or STRESS makes grep print "--", and the getter raises.
* `C100_update_refuted`: update with new xx, yy, X, Y, XY, or zz when there is Z, leaves the object as it was: the new data are silently dropped.
* `C100_shape_refuted`: update with a new x of another length: grid of the new shape, Z and zz of the old one, no exception.
* `C100_order_refuted`: xx, yy, zz with x as the fast index are accepted; Z[i,j] then is the value at another point than (X[i,j], Y[i,j]).
* `C100_repeat_refuted`: with a repeated value in x, xx and yy (made from x and y) give an exception with zz and a smaller grid without.
* `C103_orthogonal_refuted`: the text dump of a box without tilts cannot be read (as in C58), the dcd file of the same run can.
* `C103_unaligned_refuted`: Cp2kDcdMDOutputFile: the cell is rebuilt along the axes but positions are not turned; for every other cell some atom gets wrong fractional coordinates.
* `C79_fewer_refuted`
* `C72_mask_refuted`: With deg=True a fill value in [-1,0) is accepted although cosines can have this value: the angle of atoms on a line (180 degrees) is then lost.
* `C54_bulkmod_refuted`: bulkmod is B0 at every volume, not V times the second derivative of the energy.
* `C54_guard_refuted`: ... so a vertex above all volumes is accepted, contrary to the message.
* `C98_one_point_refuted`: debye_func with nstep=1 (or 0) returns 0 for every x without an error
* `C98_coefficient_refuted`: alpha of expansion is documented as the high-T limit of the expansion coefficient; the coefficient of the example in the docstring, (1/x) dx/dT, goes to 0, only (1/x0) dx/dT goes to alpha
* `C94_refit_refuted`: ExternEOS: after the first fit(), get_min() never takes notice of new data or of another way to calculate B(V), the splines are drawn only once
* `C94_curves_refuted`: ExternEOS: after a second fit() with other data, ev and pv are new but spl_ev and spl_pv are the old ones, and bv mixes new volumes with old splines
* `C94_array_refuted`: ExternEOS.get_min(behave='old') returns [v0, e0, p0, b0], documented is [v0, e0, b0, p0]
* `C94_unsorted_refuted`: ExternEOS accepts volumes which are not sorted (any() instead of all())
* `C94_path_refuted`: ExternEOS runs the basename of the program: an absolute path, which the documentation allows, is ignored
* `C96_negative_refuted`: fft_1d_loop takes every negative axis for the last one
* `C96_negative_differs_refuted`: fft_1d_loop(arr, axis=-2) of a 2d array is not the transform along axis 0
* `C96_ezfft_refuted`: ezfft leaves out the highest positive frequency for an odd number of points
* `C96_scale_refuted`: signal.scale of a constant array is 0/0
* `C96_bandstop_refuted`: FIRFilter(mode='bandstop') always raises (N is read before it is set)
* `C101_leak_refuted`: a decorated function that raises leaves the file open that the decorator opened (until it is garbage collected).
* `C101_gz_refuted`: names ending in .gz: writetxt writes plain text, readtxt raises for every file with at least one line, compressed or not.
* `C101_twice_refuted`: a file object read by readtxt a second time: array([]) if shape and axis are given, an exception otherwise.
* `C101_overwrite_refuted`: writetxt with a wrong axis or a 0d array raises after it has replaced the old file by a header, and leaves it open.
* `C90_maximum_refuted`: Fit1D.get_min() returns the maximum of a curve which has a maximum in the interval.
* `C90_lookup_refuted`: Spline.invsplev() raises for values which the curve takes if both ends of the interval are above it.
* `C90_between_refuted`: is_mono() is true for curves which fall between the data points.
* `C90_plateau_refuted`: is_mono() is false for a curve which never falls but is constant somewhere.
* `C60_get_twice_refuted`: calling get_cont() twice converts units only the first time.
* `C24_cp2k_stress_refuted`: the stress factor of the cp2k SCF parser depends on which parsers were made before.
* `C24_calculator_refuted`: parameters given to one calculator become defaults of the next one.
* `C89_stale_axis_refuted`: Gibbs.set_fitfunc("1d-ax", ...) has no effect after the first calculation: the fits of the axes are kept from then on.
* `C75_even_refuted`: But minpoints=1 is the default, and then it does not.
* `C50_bytes_refuted`: C50: bytes come back as text.
* `C50_update_without_slash_refuted`: C50: with an old key written without its leading slash, the recipe of the docs (read, update, write with mode 'w') raises; the old value stays and the new keys after it are not written.
* `C104_twice_refuted`: fit_opt pops x0, bounds, ranges and disp from the caller's opt_kwds: a second call with the same dict starts elsewhere and can return another model.
* `C109_ties_refuted`: inner_points_mask on the line keeps a point that coincides with the edge if the edge value is repeated
* `C58_orthogonal_refuted`: The dump of an orthogonal box has no tilt columns: reading its cell is an error, always.
* `C82_mirror_refuted`: A left-handed cell is turned into a right-handed one: the structure written is the mirror image.
* `C102_stale_refuted`: once a derivative of order 3 or higher of an EosFit was used, all later ones belong to the fit of that time, whatever is assigned or fitted afterwards.
* `C102_refit_refuted`: energies scaled by c and a new fit: third derivatives stay as before, a new object gives c times that.
* `C83_truncated_refuted`: Fewer points than announced: no error, the rows left are whatever was in memory.
* `C88_lost_frequency_refuted`: read_dyn does not check the number of frequencies: a dyn file with a frequency line missing gives fewer frequencies than modes and no error.
* `C88_one_frequency_refuted`: read_all_dyn gives the frequency of a dyn file with one frequency line to all modes of the q-point (broadcasting).
* `C37_put_axis_refuted`: with numpy versions that do not accept a list as index sliceput always raises.
* `C38_negative_refuted`: Negative axes in a tuple: (-1, 0) of a 2 x 3 x 5 array sums over axes 2 and 1
* `C38_keepdims_negative_refuted`: keepdims=True with negative axes only: everything is summed, nothing kept
* `C38_twice_refuted`: the same axis twice: numpy raises, num.sum sums over two different axes
* `C105_negative_refuted`: nearest_neighbors_struct with idx counted from the end (idx=-1): the neighbours are right, but the central atom is not in the structure, which the documentation promises.
* `C41_negative_refuted`: for a negative multiple the number is returned unchanged.
* `C66_unordered_refuted`: an axis in another order: the values end up at wrong places
* `C65_low_order_refuted`: order=0 and order=1: from row 2 (3) on all columns are the same
* `C65_permutation_refuted`: a point can be taken twice and another one lost
* `C69_history_refuted`: So the factors of a parser do depend on the history.
* `C77_no_cryst_refuted`: Without any CRYST1 the documented None is an exception.
* `C77_no_atoms_refuted`: A file without atoms raises as well.
* `C77_long_cell_refuted`: A record in the columns of the format, with cell lengths of four digits before the point: one blank after the word, which is not enough for the pattern.
* `C77_prime_refuted`: An atom name with a prime, as of the sugar atoms of nucleic acids: the atom is left out.
* `C77_integer_refuted`: An x without decimal point: y, z and the occupancy are taken for the coordinates.
* `C77_touching_refuted`: Columns that touch, as the format allows: they are taken for one number, and the fourth number, the occupancy, for a coordinate.
* `C40_constant_refuted`: So the promise that a polynomial's own values are reproduced fails with the default options for every constant non-negative polynomial.
* `C93_one_refuted`: PolyFit1D called with an array of one point returns a number, not an array
* `C93_column_refuted`: PolyFit1D(points of shape (npoints,1)) always raises although documented (self.fit is read before it is set)
* `C93_nd_min_refuted`: Interpol2D.get_min() without x0 always raises in more than two dimensions although documented to work
* `C84_pseudos_refuted`: In another order a type may get the file of another element.
* `C84_kpoints_tuple_refuted`
* `C84_kpoints_array_refuted`
* `C84_gamma_shift_refuted`: A shift given with the grid 1 1 1 is dropped without warning by default.
* `C84_smearing_refuted`: The lines on smearing stand between two namelists, so pw.x never reads them.
* `C85_no_unit_refuted`: The class documents ATOMIC_POSITIONS without a unit: there are no coordinates at all.
* `C85_stopped_refuted`: When the last structure printed has no result, each structure comes with the energy of the one before.
* `C85_no_forces_refuted`: Without forces the parser of single calculations gives None, the other raises.
* `C85_mixed_units_refuted`: Blocks in different units: the second is taken in the unit of the first.
* `C97_missing_refuted`: PwSCFOutputFile.get_coords raises for a file without a table of atoms; other getters return None
* `C97_natoms_refuted`: PwSCFOutputFile.get_coords and get_symbols raise (None in a format string) for a file without the line with the number of atoms; other getters return None
* `C97_converged_refuted`: scf_converged is True if any of several self-consistent cycles converged
* `C97_start_refuted`: PwMDOutputFile.get_temperature returns the starting temperature as first step: one number more than ekin, all others shifted by one step (the stored test files show it: 121 temperatures, 120 kinetic energies)
* `C97_vcmd_refuted`: PwVCMDOutputFile raises for a file without lines Ekin, T, Etot
* `C51_nearest_image_refuted`: C51, as a user may read it, is false: the minimum image convention does not give the nearest image in an oblique cell. With the default settings a structure can be returned in which a periodic image of one atom is closer to another atom than the sum of their radii.
* `C57_zero_values_refuted`: "With r = 0 predict reproduces the training values" fails when they are all zero: the fit succeeds with zero weights and every prediction is nan.
* `C70_mask_reuse_refuted`: rpdf replaces the names in the amask list of the caller by bool arrays, so the list fails for a trajectory with other atoms.
* `C45_ymin_refuted`: a peak above ymin is lost if its neighbours are below ymin.
* `C46_constant_refuted`: With mirrored ends and a longer kernel neither holds: zeros leak in.
* `C76_time_refuted`
* `C76_int_refuted`: Integer arrays of two or three dimensions lose their fractions with method 1.
* `C76_variable_cell_refuted`: With a cell that changes, the smoothed coordinates are not those of the smoothed cell: the atom at 1/3 of a cell of size 5/3 is given as 2/3.
* `C81_systematic_refuted`
* `C81_dummy_refuted`
* `C107_attach_refuted`: attach_column stores the new column at once but its values only at the next commit: after a crash in between the column is empty and attach_column refuses to write it again.
* `C107_failed_refuted`: fill_column that raises half way leaves its first values in the open transaction, and finish, called when the object is deleted, commits them.
* `C91_image_refuted`: is_same_struct calls a structure with one atom moved by a lattice vector a different one
* `C91_not_symmetric_refuted`: is_same_struct(a, b) can be true while is_same_struct(b, a) is false
* `C91_mirror_refuted`: is_same_struct does not see the handedness of the cell
* `C91_irreducible_refuted`: spglib_get_primitive() may return another realisation of an irreducible structure instead of None
* `C16_order_matters_refuted`: Without the conditions: the result depends on the order of the dict ...
* `C16_reinsertion_refuted`: ... and inserted text is replaced again (if the text already contained the placeholder elsewhere: a placeholder that occurs only in a value is left).
* `C80_name_refuted`: A name with a line end puts its rest where the atoms are expected.
* `C80_symbol_refuted`: A longer symbol is cut.
* `C80_small_refuted`
* `C80_rank_refuted`
* `C55_gibbs_evib_refuted`: the Evib grid of Gibbs is not the vibrational energy of HarmonicThermo.
* `C27_concatenate_refuted`: if the parts have different sets of attributes, nstep can be that of the first part only.
* `C106_mismatch_refuted`: Trajectory accepts two cells for three steps if both coords and coords_frac are given; then there are two volumes.
* `C73_velocity_int_refuted`: For integer coordinates the default endpoints=True truncates the velocities.
* `C73_mean_variable_cell_refuted`: With a changing cell neither the coordinates nor the volume of the mean fit its cell.
* `C108_short_refuted`: wien_sgroup_input with fewer coordinates than symbols writes a file that announces more atoms than it lists; sgroup cannot read it
* `C108_slash_refuted`: a slash in a symbol starts a comment for sgroup: symbols Al and Al/1 give inputs that are read alike
* `C30_shortest_refuted`: In a skewed cell one can be.
* `C30_float_ends_refuted`: With binary64 numbers the loop does not end for 2^54, where x - 1 = x.
* `C31_float_inside_refuted`: With binary64 numbers a tiny negative coordinate is wrapped to 1.0.
* `C61_symmetric_refuted`: Not symmetric in a skewed cell with atoms half a cell vector apart.

## Print Assumptions

Output of `Print Assumptions` for every theorem of `MANIFEST.json`, grouped by the axioms listed. All are axioms of the Coq standard library.

**No axioms (closed under the global context)** (338 theorems): C01_idx_counts_rows, C01_idx_unique, C02_revisions_count_up, C02_append_is_next_revision, C02_fresh_study_is_revision_0, C03_append_keeps_rows, C03_append_adds_one_row_per_set, C03_new_columns_are_null, C04_append_keeps_old_calculations, C04_append_adds_nothing_to_old_calculations, C05_backup_copies_to_smallest_free_name, C05_backup_of_nothing, C05_backup_never_overwrites, C05_backups_survive, C06_nothing_else_is_touched, C06_database_never_lost, C06_directory_never_lost, C06_backups_made, C07_row_values, C07_bookkeeping_not_spoofed, C07_entries_total, C08_input_files, C09_run_sh, C09_excl_push, C10_append_to_other_table_raises, C10_empty_table_is_stuck, C10_killed_study_is_stuck_refuted, C10_two_types_refuted, C11_add_column_present, C11_add_column_missing, C11_add_column_raises, C11_add_column_idempotent, C11_add_columns, C12_fill_column, C12_fill_column_keeps_values, C12_fill_column_empty, C12_attach_column, C13_get_dict_transposes, C13_get_dict_value, C13_get_dict_no_other_key, C14_sql_column, C14_sql_column_type, C14_sql_column_defined, C14_sql_matrix, C14_sql_matrix_colnames, C14_sql_matrix_long_row, C14_sql_matrix_total, C15_study_templates_do_not_leak, C15_fresh_lists_do_not_leak, C15_default_templates_leak, C15_default_argument_refuted, C16_template_replace_substitutes, C16_template_replace_order_irrelevant, C16_template_replace_raises, C16_no_placeholder_no_change, C16_file_template_replace, C16_file_template_replace_failure, C16_order_matters_refuted, C16_reinsertion_refuted, C17_nested_loops_enumerates, C17_nested_loops_flatten, C17_ensure_list_leaves, C18_unique2d_rows, C18_unique2d_distinct_complete, C18_unique2d_idempotent, C18_unique2d_columns, C18_unique2d_empty, C19_flatten_leaves, C19_flatten_app, C19_flatten_flat, C19_flatten_result_flat, C20_pop_from_list_removes, C20_pop_from_list_raises, C20_pop_from_list_counts, C21_str2seq_seq2str, C21_str2seq_seq2str_default, C21_seq2str_str2seq, C21_words, C21_words_exist, C21_multichar_separator_refuted, C21_empty_sequence, C22_set_all, C22_order_irrelevant, C22_structure, C22_none_is_not_remembered, C23_units_once, C23_later_calls_change_nothing, C23_none_stays_none, C23_update_units, C23_raw_twice_raises, C24_parser_units_do_not_leak, C24_cp2k_stress_leaks, C24_cp2k_stress_refuted, C24_calculator_parameters_leak, C24_calculator_refuted, C25_index, C25_index_outside, C25_slice, C25_slice_twice, C25_reversed, C25_other_lengths_lost, C26_complete_loop, C26_all_calls, C26_after_break, C26_nested_never_ends, C27_concatenate, C27_concatenate_refuted, C27_get_traj, C29_round_trip, C29_chain, C29_position, C29_frac2cart, C29_frac_cart, C29_traj, C29_traj_round_trip, C30_float_ends_refuted, C31_float_inside_refuted, C34_mask, C35_voigt, C35_symmetric, C35_tensor, C35_order, C35_voigt3d, C37_take_slice, C37_take_int, C37_take_tuple, C37_take_bad_axis, C37_put_tuple, C37_put_take, C37_put_axis, C37_put_axis_refuted, C37_extend, C37_extend_bad_axis, C38_sum, C38_order, C38_keepdims, C38_int, C38_all, C38_negative_refuted, C38_keepdims_negative_refuted, C38_twice_refuted, C39_mask, C39_taken, C40_powers, C41_next, C41_negative_refuted, C41_zero, C43_deterministic, C43_no_deadlock, C44_padded, C44_defined, C44_next_power, C44_ambiguous, C44_bad_axis, C48_round_trip, C48_flat, C48_single_line_fails, C48_empty, C48_refused, C48_refused_read, C49_round_trip, C49_fortran_header, C49_ref_truncated, C49_read_truncated, C49_fortran_partial_frame, C49_readers_agree, C49_no_frames, C49_short_header, C50_round_trip, C50_append, C50_append_only, C50_update, C50_bytes_refuted, C50_update_without_slash_refuted, C52_report, C52_tags_independent, C52_raises, C52_pt_twice, C54_order, C58_natoms, C59_makedb_appends, C60_first_get_converts, C60_second_get_does_not, C60_get_twice_refuted, C66_grid, C66_unordered_refuted, C67_odd, C69_units, C69_cp2k_stress, C69_history_refuted, C69_unknown, C73_rmsd_reference, C77_symbols, C77_coords, C77_cryst, C77_no_cryst_refuted, C77_no_atoms_refuted, C77_long_cell_refuted, C77_prime_refuted, C77_integer_refuted, C77_touching_refuted, C78_cryst, C78_coords, C78_no_coords, C78_symbols, C78_round_trip, C78_digits_refuted, C78_unlooped_refuted, C80_mismatch, C80_name_refuted, C80_rank_refuted, C81_unique, C81_same, C81_order, C81_typat, C81_nspecies, C81_znucl, C81_mass, C81_unknown, C81_mass_unique, C81_systematic, C81_systematic_refuted, C81_positive, C81_dummy_refuted, C81_periods, C81_weights, C82_symbols, C83_rows, C83_complete, C83_truncated_refuted, C83_excess, C83_leftover, C83_unreadable, C84_pseudos, C84_pseudos_sorted, C84_pseudos_refuted, C84_pseudos_missing, C84_pseudos_one, C84_kpoints, C84_kpoints_tuple_refuted, C84_kpoints_array_refuted, C84_full, C84_gamma_shift_refuted, C84_nk, C85_matched, C85_no_forces_refuted, C85_cut, C86_trajectory, C86_cut, C86_energies, C86_matrices, C86_one_step_refuted, C86_outfile_forces, C86_force_file, C86_missing, C86_opt_energies, C86_cell_opt, C86_geo_opt, C86_scf, C86_scf_energy, C86_two_energies_refuted, C86_scf_stress, C87_natoms, C87_scale, C87_scf_stress, C87_scf_etot, C87_scf_gradients, C87_converged, C87_trajectory, C87_forces, C87_cut, C87_single_refuted, C87_cell, C87_stress, C87_gap_refuted, C88_modes, C88_wrong_natoms, C88_wrong_q, C88_dyn, C88_lost_frequency_refuted, C88_all_dyn, C88_agree, C88_missing, C88_one_frequency_refuted, C91_spacegroup, C91_roundtrip, C93_column_refuted, C94_path_refuted, C96_axis, C96_negative_refuted, C96_negative_differs_refuted, C96_large, C97_nkpoints, C97_timestep, C97_ekin, C97_temperature, C97_steps, C97_start_refuted, C97_vcmd, C97_vcmd_refuted, C99_exe, C100_axes, C100_same, C100_index, C100_update_refuted, C100_update, C100_update_all, C100_shape_refuted, C100_order_refuted, C100_repeat_refuted, C101_by_name, C101_leak_refuted, C101_by_object, C101_reads_only, C101_write, C101_round_trip, C101_gz_refuted, C101_twice_refuted, C101_overwrite_refuted, C102_once, C102_first, C102_assign, C107_fill, C107_attach, C107_add, C107_create, C107_insert, C107_default, C107_other_tables, C107_killed, C107_lost, C107_commit, C107_ddl_stored, C107_attach_refuted, C107_attach_open, C107_failed_refuted, C107_finished, C107_rows

**`ClassicalDedekindReals.sig_forall_dec`** (19 theorems): C28_refused, C58_atoms, C58_thermo, C58_stress, C58_cryst_const, C67_mirror, C71_distsq_runs, C87_one_step_refuted, C87_columns, C87_missing, C88_dynmat, C88_ir_raman, C95_copy, C95_compress, C97_broken, C97_missing_refuted, C97_natoms_refuted, C97_cycles, C97_converged_refuted

**`ClassicalDedekindReals.sig_forall_dec`, `FunctionalExtensionality.functional_extensionality_dep`** (177 theorems): C28_mix, C28_ends, C30_min_image, C30_unique, C30_idempotent, C30_orthogonal_shortest, C30_shortest_refuted, C31_wrap, C31_unique, C31_idempotent, C34_scell, C34_methods, C34_traj, C34_volume, C36_num, C36_cutoff, C36_unsorted, C36_lost, C40_solver_exists, C40_unit_range, C40_refused, C42_bound, C43_python, C43_bounded, C45_peaks, C45_ymin, C45_ymin_sound, C45_ymin_refuted, C46_value, C46_defined, C46_within, C46_constant, C46_delta, C46_constant_refuted, C47_inverse, C47_relations, C47_bad_mode, C53_length, C53_vertices, C53_linear, C53_vlinspace, C53_vlinspace_refused, C54_guess, C55_trapz_linear, C55_init, C55_dosarea, C58_cell, C58_orthogonal_refuted, C61_entry, C61_diagonal, C61_images_irrelevant, C61_symmetric_orthogonal, C61_symmetric_generic, C61_symmetric_refuted, C62_points, C62_ends, C62_refused, C63_area, C63_scale_irrelevant, C63_trapz, C65_values, C65_streams, C65_repeat, C65_low_order_refuted, C65_permutation_refuted, C67_welch, C68_window, C69_converts, C71_distsq, C71_distsq_refused, C73_velocity, C73_velocity_inner, C73_velocity_exact, C73_velocity_refused, C73_velocity_int_refuted, C73_mean, C73_mean_defined, C73_mean_consistent, C73_mean_variable_cell_refuted, C74_center, C74_center_refused, C74_center_failed_inplace, C74_center_velocity_refuted, C76_values, C76_methods, C76_defined, C76_consistent, C76_time_refuted, C76_int_refuted, C76_variable_cell_refuted, C85_coords, C85_no_unit_refuted, C85_cell, C85_cell_alat, C85_cell_plain_alat, C85_without_alat, C85_run, C85_stopped_refuted, C85_mixed_units_refuted, C87_force_sign_refuted, C87_energies, C87_ekin_refuted, C87_econst_refuted, C89_G, C89_H, C89_pressure, C89_monotone, C89_two_axes, C89_inputs, C89_F, C89_Cp, C89_given, C89_full, C89_history, C89_refuses, C89_stale_axis_refuted, C90_stationary, C90_root, C90_inverse, C90_outside, C90_lookup_refuted, C90_mono, C90_spline, C90_findmin, C90_findroot, C90_between_refuted, C90_plateau_refuted, C92_table, C92_raises, C92_lines, C92_shift, C92_telescope, C92_last, C92_absolute, C92_hidden_refuted, C94_first, C94_once, C94_refit_refuted, C94_curves_refuted, C94_array_refuted, C94_behave, C94_accepted, C94_unsorted_refuted, C94_elk, C94_elk_points, C95_independent, C95_get_traj, C95_wrap_copy, C95_compress_copy, C95_frame_refuted, C95_symbols_refuted, C95_wrap_frame_refuted, C95_timestep_refuted, C95_once, C95_frame, C95_slice, C95_wrap, C96_lorentz, C96_lorentz_shape, C96_scale, C96_scale_refuted, C96_bandstop_refuted, C96_fir, C96_filter, C97_structure, C97_cell, C97_cell_md, C99_stress, C99_pwscf, C106_pressure_rotated, C106_pressure_hydrostatic, C106_solved, C109_line, C109_inner, C109_between, C109_ties_refuted, C109_hull

**`ClassicalDedekindReals.sig_forall_dec`, `ClassicalDedekindReals.sig_not_dec`, `FunctionalExtensionality.functional_extensionality_dep`** (93 theorems): C32_volume, C33_right_handed, C33_left_handed, C33_dual_refuted, C40_best_fit, C40_exact, C40_flags_irrelevant, C40_defined, C40_defined_unscaled, C40_constant_refuted, C42_agree, C42_unknown_method, C42_normalised, C42_zero_signal, C43_fortran, C43_returns, C43_unknown_method, C51_atom_attempts, C53_path_norm, C53_labels, C57_predict, C57_gradient_rows, C57_interpolates, C57_regularised, C57_least_squares, C57_mean_p, C64_rotation, C64_raises, C64_degrees, C64_about_z, C64_about_x, C67_dft, C68_same, C68_spectrum, C68_nonneg, C70_smith, C70_smith_width, C70_smith_maximal, C70_neighbours, C70_number_integral, C70_density, C70_symmetric, C70_defined, C70_defaults, C70_mask_reuse_refuted, C71_distances, C71_trajectory, C71_runs, C71_private_needed, C71_metric, C73_rmsd, C73_rmsd_metric, C73_rmsd_rigid, C74_axes, C74_align, C74_align_defined, C74_align_points, C74_check, C74_distortion, C74_unchecked_refuted, C74_align_twice, C75_size, C75_spacing, C75_refused, C75_even, C75_even_refuted, C75_monotone, C75_round_trip, C75_kgrid, C93_1d, C93_one_refuted, C93_nd, C93_refused, C93_min, C93_min_from, C93_nd_min_refuted, C96_fft, C96_ezfft, C96_ezfft_refuted, C98_one_point_refuted, C98_pointwise, C103_missing, C104_defaults, C104_params, C104_fit_opt, C104_not_worse, C104_dict, C105_cutoff, C105_num, C105_distances, C105_again, C105_negative_refuted, C105_fails

**`ClassicalDedekindReals.sig_forall_dec`, `Classical_Prop.classic`, `FunctionalExtensionality.functional_extensionality_dep`** (3 theorems): C95_units, C95_units_lost_refuted, C95_input

**`ClassicalDedekindReals.sig_forall_dec`, `ClassicalDedekindReals.sig_not_dec`, `Classical_Prop.classic`, `FunctionalExtensionality.functional_extensionality_dep`** (134 theorems): C32_cell2cc_cc2cell, C32_cc2cell_cell2cc, C32_volume_cell, C32_celldm, C32_celldm_back, C40_derivative, C49_frame_count, C51_distances, C51_cell, C51_cell_attempts, C51_gives_up, C51_nofail, C51_nearest_image_refuted, C54_derivatives, C54_parameters, C54_get_min, C54_call, C54_bulkmod, C54_bulkmod_refuted, C54_guard, C54_guard_refuted, C54_fit_exact, C55_energy, C55_entropy_derivative, C55_heat_capacity_derivative, C55_bounds, C55_dulong_petit, C55_axis, C55_gibbs, C55_gibbs_evib, C55_gibbs_evib_refuted, C56_cell, C56_needs, C56_unneeded, C56_triclinic, C56_domain, C57_gradient, C57_deriv_of_predict, C57_fit_error, C57_zero_values_refuted, C72_cosine, C72_degrees, C72_degrees_nan, C72_selection, C72_count, C72_filled, C72_refused, C72_symmetric, C72_triangle, C72_mask_refuted, C74_align_orthonormal, C74_mirror_refuted, C79_round_trip, C79_nearest, C79_readable, C79_cif, C79_fewer_refuted, C80_eps, C80_str_arr, C80_vector, C80_atpos, C80_fast, C80_xyz, C80_axsf, C80_exact, C80_symbol_refuted, C80_small_refuted, C82_file, C82_raises, C82_geometry, C82_distances, C82_mirror_refuted, C84_file, C84_smearing_refuted, C84_ecutrho, C84_raises, C89_alpha, C90_min, C90_max, C90_maximum_refuted, C91_same, C91_early, C91_rotation, C91_image_refuted, C91_not_symmetric_refuted, C91_mirror_refuted, C91_reflexive, C91_already_primitive, C91_primitive, C91_primitive_fails, C91_irreducible_refuted, C93_derivative, C94_minimum, C98_debye_error, C98_debye_converges, C98_functions, C98_einstein, C98_debye, C98_slope, C98_coefficient_refuted, C98_zero, C99_lammps, C99_lammps_axes, C99_frame_refuted, C99_label_refuted, C99_others, C102_refit, C102_failed_fit, C102_stale_refuted, C102_refit_refuted, C103_lammps, C103_orthogonal_refuted, C103_cp2k, C103_unaligned_refuted, C104_held_out, C104_cv, C104_direct, C104_twice_refuted, C106_frames, C106_lengths, C106_time, C106_one_cell, C106_succeeds, C106_mismatch, C106_mismatch_refuted, C106_no_positions, C108_returns, C108_reads, C108_different, C108_lengths, C108_short_refuted, C108_slash, C108_slash_refuted, C108_file

## What is modelled and what is not

| file in /repo/src | modelled | not modelled |
|---|---|---|
| pwtools/arrayio.py, decorators.py | writetxt, readtxt, open_and_close (C101), lazyprop (C102) | savebin, loadbin (thin wrappers of numpy) |
| pwtools/base.py | FlexibleGetters | dump, load, copy |
| pwtools/batch.py | Machine, FileTemplate, Calculation, ParameterStudy.write_input, conv_table (C92) | |
| pwtools/calculators.py | class-level default_parameters, Pwscf.write_input with its template and choice of pseudopotentials, find_exe, stress_pwtools2ase, files written and read by Pwscf and Lammps (C99) | the ASE base class, text of the Lammps template |
| pwtools/comb.py | all functions on sequences | |
| pwtools/common.py | template_replace (txt mode), frepr, fix_eps, str_arr, file_template_replace, backup, makedirs, sequence helpers | dct mode, shell calls, printing |
| pwtools/crys.py | cells, coordinate transformations, wrapping, minimum image, distances, angles, supercells, Voigt, neighbours (also as structure, C105), rpdf, units, getters of Structure/Trajectory (with numbers: C106), slicing, iteration, concatenate, mix, velocity_traj, rmsd, mean, align_cart, center_on_atom, grid_in_cell, kgrid, smooth, copy, compress, get_traj and what shares memory | spglib and ASE interfaces |
| pwtools/dcd.py, _ext_src/dcd.f90 | all readers | |
| pwtools/eos.py | Vinet, EosFit, ExternEOS, ElkEOSFit | text of the eos.x input and output files, deriv and other EOS programs themselves |
| pwtools/io.py | write_h5, read_h5, write_cif, write_xyz, write_axsf, write_lammps, wien_sgroup_input (C108) | ReadFactory |
| pwtools/kpath.py | kpath, get_path_norm | plotting |
| pwtools/num.py | vlinspace, norm_int, sum, slicetake, sliceput, extend_array, DataND, match_mask, order_similar, distsq, round_up_next_multiple, euler_matrix, polynomial fits (functions and classes; Interpol2D for what='poly'), inner_points_mask (C109), Fit1D, Spline (splrep and root finders as parameters) | other interpolators of Interpol2D, spline coefficients |
| pwtools/parse.py | unit handling of all parsers, StructureFileParser.get_cont, LammpsTextMDOutputFile (also symbols), PDBFile, CifFile, PwSCFOutputFile, PwMDOutputFile and PwVCMDOutputFile, Cp2kSCFOutputFile, Cp2kMDOutputFile, Cp2kRelaxOutputFile, CpmdSCFOutputFile and CpmdMDOutputFile, trajectories from dcd files (C103) | other text parsers |
| pwtools/pwscf.py | ibrav2cell, atpos_str, atpos_str_fast, atspec_str, kpoints_str*, bool2str, read_matdyn_freq, read_matdyn_modes, read_dyn, read_all_dyn, read_dynmat, read_dynmat_ir_raman | reading files by name (lines are given), unit strings |
| pwtools/pydos.py | pyvacf, fvacf, pdos without full_out | |
| pwtools/random.py | RandomStructure | |
| pwtools/rbf | Rbf (without jax), FitError, fit_opt (C104) | p='scipy', jax |
| pwtools/signal.py | acorr, dft, fftsample, pad_zeros, smooth, find_peaks, mirror, welch, odd, fft_1d_loop, ezfft, lorentz, scale, FIRFilter (scipy as parameters) | gauss |
| pwtools/sql.py | SQLEntry, SQLiteDB operations, connection with transactions and crashes (C107), makedb | executemany, executescript, get_array and other thin wrappers; deleting rows with own SQL |
| pwtools/thermo.py | HarmonicThermo, Gibbs (fits as parameters), debye_func, einstein_func, expansion | the fit classes |
| pwtools/timer.py | TagTimer | |
| _ext_src/flib.f90 | vacf, vect_loops, acorr, distsq, angles, distsq_frac, distances_traj, frac2cart, cart2frac and trajectory versions | solve (LAPACK) |
| pwtools/atomic_data.py | symbols, masses, numbers | covalent radii |
| symmetry.py | everything except keywords for spglib (C91) | spglib itself is a parameter |
| pwtools/mpl.py | Data2D (C100) | plotting |
| constants.py, config.py, mttk.py, regex.py, verbose.py, visualize.py | | data tables, plotting, viewers, external programs |

## Tests with wrong programs

`seeded/LOG.jsonl` has one line for each edit of a model file that was tried in a scratch copy: the
definition, the edit, the claim it breaks, the theorems that failed, and the theorems that were added
or tightened when none did.
