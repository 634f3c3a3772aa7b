# Formal model of usgs/earthquake-cencalvm — design

All Coq files are in `rocq/theories`, logical name `Verif`.  The model is
computable Gallina.  Each definition cites the file and lines of /repo it
models.  Models, specifications, proofs and property statements live in
separate files:

* `*Model.v` or plain names (`Addr.v`, `Geom.v`, `AvgEngine.v`, ...): the model.
* `Spec*.v`: small independent specifications used in property statements.
* `*Proof.v`, `*Facts.v`: lemmas.
* `Prop*.v`: only `Theorem ... exact lemma. Print Assumptions`, and non-vacuity
  `Example`s.

## Representation decisions

* **Floating point.**  C++ `float`/`double` are `spec_float` of Coq's standard
  library (`Coq.Floats.SpecFloat`) at precision/exponent (24,128) and
  (53,1024), with round-to-nearest-even operations.  No axiom is involved in the
  model itself.  Simplifications: all NaNs are one value; expressions are
  evaluated in their declared type (FLT_EVAL_METHOD = 0, no contraction).
  Flocq is used only in proofs, to relate these values to real numbers.
* **Integers.**  Ticks are `Z` with explicit `mod 2^32`; `int`/`int16_t` are `Z`.
* **Undefined behaviour, assertion failure and exceptions** are distinct
  outcomes: `Val a | Throw msg | Abort | UB` (file `Outcome.v`).  Assertions are
  modelled as enabled (no NDEBUG), as in the default build.
* **etree library** (external, not in /repo): a database is a list of records
  (address, payload), with its schema, description and payload size.  For
  queries (`VMQuery.v`) `etree_search` is an arbitrary function of the model's
  state; theorems that need it to find things assume the contract `searches` of
  `SpecQuery.v`: the result is the deepest stored octant whose cube contains
  that of the address, if there is one.  For averaging (`AvgEngine.v`) the
  success of every append, update and search is an arbitrary function (record
  `storage`); `accepts` and `refuses_duplicates` (`SpecAvg.v`) are the contracts.
  For files (`Store.v`) the success of every call is a field of the record
  `etree`; the disk persists across exceptions.
* **PROJ, libm** (`log`, `sin`, `cos`), number formatting and parsing are
  parameters (record `env` or section variables, universally quantified in the
  theorems) whose assumed behaviour appears as hypotheses.
* **Files**: a file system is a finite map from names to contents (text or
  database).

## Per-property plan

| Id | Modelled | Proof |
|----|----------|-------|
| C01 | `Geometry::findAncestor` with 32-bit masks (`Addr.v`) | bit-level lemma mask = floor to multiple of 2^(31-k); containment by integer arithmetic |
| C02 | `GeomCenCA::lonLatElevToAddr` in doubles (`Geom.v`) | Flocq: correctly rounded quotient never crosses an octant face because the divisor is 25*2^k |
| C03 | same | quotient exact at the boundary |
| C04 | same, plus the three query functions | case analysis on special values |
| C05 | C02 + C01 | containment is unique |
| C06 | `addrToLonLatElev` | exactness of each double operation (Flocq `generic_format`) |
| C07 | `edgeLen`, `level` with an abstract `log` | error analysis in R; the azimuth constants against the true angle by rational bounds for pi, cosine and sine (`TrigNum.v`) |
| C08–C15 | whole of `AvgEngine.cc` as a state machine over the pending table and output list (`AvgEngine.v`) | invariant: the pending table is the chain of ancestors of the last octant and each slot holds the fold of its finished children; induction over the input; spec is a recursive tree traversal (`SpecAvg.v`) |
| C16 | `_addToParent`/`_processOctant` arithmetic | Flocq monotonicity of rounding |
| C17 | `Averager::average` on a file system | case analysis |
| C18–C23 | `VMQuery` query functions (`VMQuery.v`) for arbitrary search function | case analysis; induction on the level for WAVERES |
| C24–C26 | `queryVals`, setters | list induction |
| C27–C29, C32 | `open`, `close`, `query` | case analysis, induction over histories |
| C30–C31 | `ErrorHandler` with log files | induction over histories against a specification that scans the history |
| C33–C34 | C and Fortran wrappers | refinement, function by function |
| C35–C39 | `VMCreator`, `GridIngester`, istream model (`Stream.v`) | induction over tokens/lines |
| C40, C50, C51 | `cencalvmquery` (`GetOpt.v`, `QueryApp.v`): command line, start, location loop | induction over options and over locations; a query depends on the error handler only by shifting what it reports (AppFacts), so each answer is that of a query alone; refutations by witness |
| C52, C53 | `cencalvmisosurface` (`IsoApp.v`): command line, start, surface, bisection, loop over points | error analysis of the number of steps and of the midpoints (`IsoNum.v`), invariant of the bisection, independence of queries from earlier ones; refutations by witness databases |
| C54 | rest of `VsGrader.cc` (`VsRun.v`): parameter file, extraction, packing, grading of the file | induction over the settings of the text (`ParamFacts.v`); the stream state after every setting is known |
| C55–C56 | `VsGrader::run`, `_extract`, `_pack`, `_grade` on files (`VsRun.v`) | invariant over the three loops: the query object equals the opened one up to its messages, the file holds the records of the points visited (`ExtractFacts.v`); a point with a proper octant lies inside the model; composition with C11 (packing) and C42; for domains made of whole octants the points of the grid are placed by GradePlace.v (PropRunDomain.v) |
| C57–C58 | `main` and `parseArgs` of cencalvmavg, cencalvmgen, cencalvmpack, gradecencalvm (`SmallApps.v`) | `getopt` on sequences of options and words (`SmallFacts.v`); inversion of a successful ingestion (`GridInv.v`), packing and averaging; a gradient run that succeeds is the same run with storage that never fails (`PropGradeExit.v`) |
| C59 | the two programs one after the other and the query object | composition of C36, C57, C17 and C44; a place lies in at most one of the octants |
| C60 | `cencalvminfo.cc` (`SmallApps.v`) | case analysis, induction over decimal numerals, C58 |
| C61 | `examples/query/c/cencalvmcquery.c` (`CExample.v`) on the C interface of `CApi.v` | step lemmas for each call on the live object; what `fscanf` reads from a text, as a relation (`feeds`); induction over the locations; comparison with C40 (`CExampleFacts.v`) |
| C62 | `examples/query/f77/cencalvmf77query.f` (`FExample.v`) on the Fortran interface of `Fortran.v` | as C61; names from constants without an end (C34); induction over the locations for every status (`FExampleFacts.v`) |
| C63–C64 | the averaging engine, `Averager`, `packDB` and `closeDB` with every storage call failing or not (`fillFrom` in `AvgEngine.v`, `et_adv`, `et_flush` in `Store.v`) | a run equals the run without failures or throws: structural recursion over the engine (`AvgFail.v`); invariant that every stored octant was accepted and every filled interior octant updated |
| C65–C66 | the text printed by `AvgEngine::printOctantInfo`, `VMCreator` and `GridIngester` and by the programs around them (`Report.v`): the functions of `AvgEngine.v`, `VMCreator.v`, `GridIngester.v`, `SmallApps.v` again, with the two streams | removing the text gives the functions without text (`ReportFacts.v`); C11 for the numbers of the report; induction over points and files for the lists |
| C67–C68 | `cencalvmavg`, `cencalvmpack`, `cencalvmgen`, `gradecencalvm` as trees of file operations (`Steps.v`); a kill may leave anything in the files open for writing; any number of processes with interleaved operations | run to the end, the trees give the functions of `SmallApps.v` (`StepFacts.v`); a discipline on the trees (read an input or an own file, write an own file after creating it) is checked for every program and gives confinement, running again, and independence of the schedule by induction over trees and interleavings (`StepRuns.v`) |
| C69 | the same trees with two machines: any storage, and the same storage with no failure (`flawless`) | every program gives the same on both or an exception: induction over the trees, with the lemma of C63 for the engine and the same for grading |
| C70 | `VMQuery` (PropConst.v; squashed PropConstSquash.v) | all stored octants around a location are decided by the smallest one (nesting); hence the relations of C18–C20, C23 and the surface of C46 give the same at both places; with C44 for averaged files |
| C71 | `cencalvmquery` (QueryStages.v): what is written at each point | consecutive stages only add to the log and the output; a complete run is the last stage; a run reads files only through the log, which is truncated when opened |
| C72 | `cencalvmisosurface` (IsoStages.v): what is written at each point, and whether the output stream is closed at the end | as C71, without a log; refutation by a run that gives up at the second point |
| C73 | the lines of `cencalvmquery` as text; formatted output under the contract `prints` (SpecColumns.v), which a concrete formatter is shown to satisfy | lengths of numerals from the sizes of the numbers, so that every column but the first starts with a blank; a text has one sequence of words and a word shows one number; refutation by a run at 100 km depth |
| C74 | the three programs one after the other: grid files as text, database files, a file of locations, the output as text (SpecLines.v: `told`) | C59 (the averaged file holds the grid's records), C44/C46 for the answer at a location and the ground above it, C73 for the words; uniqueness of the octant for the grid points; a concrete grid in degrees |
| C75 | the isosurface program's output as text (SpecDepths.v: `layered`, `depth_told`), with `prints` as for C73 | C52_layered for each point in a file of its own, C53_all_lines to join them, the widths of the columns as in C73, error of the subtraction and of one decimal place against 0.1 m |
| C76 | `cencalvmavg` (SmallApps.v) on files whose records overlap; grid files through `cencalvmgen` | C14 for the engine, carried to files (an exception leaves through `average`) and to the program's exit code; C36 for the database of the grids; concrete grids of two resolutions |
| C77 | `Projector` (Projector.v) with the library's error number as state, any number of objects; whether the library keeps or shares the number is a parameter | induction over the history of calls: the number an object sees is that of the last failure it can see; the function that Geom.v has for the projection is what the object does as long as nothing failed; C32 for the query |
| C78 | the averaged tree of C44 (`averaged`, SpecE2E.v), any depth | induction over the levels: at most eight children, error bound of one mean (C16) carried through 31 levels, sums and quotients of positive numbers stay positive (monotonicity of rounding), means of numbers that are not positive are not positive; C44 for the queries, with half the sum of two rock octants, one inside the other, for a shortest period |
| C79 | `_queryMax`, `_queryFixed`, `_queryWave`, `level` (answers of C18–C20) | the octant behind an answer as a relation (`fixed_octant`, `wave_octant`, SpecOrder.v); `level` is a composition of monotone rounded operations with a logarithm that never decreases; an octant too fine for a period is too fine for a longer one, so the two climbs share a prefix; half the double of a number is the number |
| C80 | averaging followed by queries, twice (the pairs of C44; with extended databases PropLocalExt.v) | the recursive mean (`averaged`) is transferred from one input to the other by induction over the tree; the three answers of C44 are determined and use only octants inside (and, for input octants coarser than asked, around) the octant named in the theorem |
| C81 | cencalvmgen and cencalvmavg run on two sets of files (C59) | the records of a point are determined, so the records are permutations of each other; lists in strict etree order with the same members are equal; C80 at the root for the averages |
| C82 | gradecencalvm, cencalvmavg and a query object, one after the other | C56 gives the records of the graded file; all have the level of the horizontal resolution, so none is above another; scaling by rounded products keeps values valid and shear speeds finite; then C17 and C44 |
| C83 | `_limitDiff`, `_grade` (`VsGrader.v`) | one step by monotonicity of rounding, induction over profiles forwards and backwards, loops over the grid that change nothing; the bound for two passes from C42 (`PropGradeFixed.v`); two runs of the program from C56 twice: the answers at the grid points are the graded values, raising to the smallest speed moves them by at most the tolerance because a constant is a limited model (`PropGradeAgain.v`) |
| C84 | two query objects in two storage environments (`SpecSame.v`), all calls of `VMQuery.v`; `packDB`, averaging | a search has one result (octants of one level that cover the same cube coincide); simulation of every call, induction over the script; the loops of the two query programs by induction (`PropSameApps.v`); programs in C as lists of calls on any handles, a simulation of the worlds of query objects (`PropSameC.v`); the same for programs that use the spatial database object (`PropSameDb.v`); C35 and C80 for packing and averaging (`PropSame.v`) |
| C85 | `_limitDiff`, `_grade`, `_extract` (`VsGrader.v`, `VsRun.v`) run on two inputs; `reach` (`SpecGradeNear.v`) | the largest limited model is above every cone, and a cone below the first model is, lowered by e, below the second one near the point and negative far from it; C42 and C56 for rounding and the program; the raising of slow speeds does not drive answers apart (`PropGradeNear.v`) |
| C86 | `AvgEngine.v`, `Averager.v` run on two inputs, queries of `VMQuery.v` (`SpecRaise.v`) | the two trees are walked side by side (as in C44's uniqueness); sums and quotients in single precision are monotonic because rounding is, and C78 excludes overflow; the means of pairs differ by no more than the pairs, plus C16's error at each level (`RaiseFacts.v`, `PropRaise.v`) |
| C87 | all calls of `VMQuery.v`; which parts of a query object a call changes or depends on (`SpecOrderCalls.v`) | settings as functions that commute with each other, with opening, closing, the error handler and queries; induction over the exchanges and over the permutation (`PropOrderCalls.v`) |
| C88 | as C52; the depths of two runs at one point | the search as a function of the target and the profile, ordered by induction over its steps: once two searches part, one stays above the midpoint and the other below; rounding is monotonic, also in the printed column; C53_all_lines for whole files (`PropNested.v`) |
| C89 | as C40; runs over parts and permutations of a list of locations (`SpecSplit.v`) | every location is answered, refused or goes wrong (C47), so exit code 0 gives an answer for each; C40 from these answers to the other runs; a line is determined by the answer (`PropSplit.v`) |
| C90 | as C53; runs of the isosurface application over parts and permutations of a list of points | every point gives a line or ends the run with code 1 or a crash, so exit code 0 gives a line for each; the line and messages of a point do not depend on the points before it (C53's invariant), so the same lines make up the other runs (`PropIsoSplit.v`) |
| C41–C42 | `VsGrader::_limitDiff`, `_grade` (VsGrader.v), parameterised by the arithmetic | exact: the two sweeps give the largest Lipschitz minorant, uniqueness, later passes preserve earlier limits because limiting is monotone and commutes with constants; machine: one step never raises (double rounding analysis), step error, Lipschitz propagation; storage contract `stores`; where the grid points are (GradePlace.v): counts by monotonicity of rounding, positions by error propagation, and for a domain aligned with the root cube every point falls in its own octant (C42_domain) |
| C43 | `CenCalVMDB::query` | case analysis, bounded loop |
| C45 | rotation and its inverse (`Geom.v`) | error analysis in R |
| C46 | surface elevation used by squashing | case analysis |
| C47 | `query` throws only what the projection throws | case analysis |
| C48 | all objects reachable through the C interface (`CApi.v`, `w_objs`) | induction over the interleaving: a call on one object neither reads nor writes another |
| C49 | `_configure` of the Python class (`VMDB.v`) | case analysis, refutation by witness |
| C44 | composition of `SpatialAvg`/`AvgEngine` (file to file) and `VMQuery` (SpecE2E.v, E2EFacts.v, PropE2E.v; with two databases PropE2EExt.v) | recursive mean as an inductive relation over the input; every stored octant satisfies it (induction on 31 - level); answers of C18–C20 restated over the input; the relation is functional |

## Trusted base

* Coq 8.16.1 kernel.
* Axioms: theorems that mention real numbers depend on the standard library's
  `ClassicalDedekindReals.sig_not_dec`, `ClassicalDedekindReals.sig_forall_dec`,
  `FunctionalExtensionality.functional_extensionality_dep` and
  `Classical_Prop.classic`; the others are closed under the global context.
  `Print Assumptions` under each property theorem prints the list.
* The reading of the C++ source, line by line, recorded in comments.
* The behaviour of external code, which appears as fields of records that are
  universally quantified in the theorems (`libm`: cos, sin, log, PROJ forward and
  inverse; `numfmt`: text/number conversion; `storage`, `etree`: the etree
  library; the `searches` contract; `texts`: atoi, atof and the output of numbers (with the contract
  `prints` for C73);
  `os`: opening, reading and writing the application's files; GNU getopt is
  modelled in `GetOpt.v`; `sci`: a number written with `std::scientific` and six
  digits).  These are functions: outside C77 the projection does not remember earlier
  failures (C77_function says when that is so), and writing on standard output and standard error succeeds.  What a theorem assumes
  about them is in its hypotheses.
* C67 and C68: a process is killed between two operations, or in one, and then anything
  may be left in the files it has open for writing; a file that was closed keeps its contents (a failure of
  the whole machine, where closed files can lose data, is not covered).  Texts and the
  database that the gradient program queries do not change while it runs.
* `FLT_EVAL_METHOD = 0`, IEEE 754 arithmetic, 32-bit `int`, asserts enabled.
* Operands of `<<` are evaluated from left to right (C++17).  With an older compiler the
  warning about a missing parent octant (C21) may name one octant twice, since both names
  are written to the same buffer.
* `etree_initcursor` at the first corner of the root positions on the first record of the
  database.

## What is modelled

| File of the model | Code |
|---|---|
| `Payload.v` | storage/Payload.{h,cc} |
| `Addr.v` | storage/Geometry.cc (findAncestor), etree address type |
| `AvgEngine.v` | average/AvgEngine.cc, whole file |
| `Geom.v` | storage/GeomCenCA.{h,icc,cc} |
| `Projector.v` | storage/Projector.{h,cc} |
| `ErrorHandler.v` | storage/ErrorHandler.{h,icc,cc} |
| `VMQuery.v` | query/VMQuery.{h,icc,cc}, whole class |
| `Store.v`, `Averager.v` | average/Averager.cc and the etree calls it makes |
| `VMCreator.v` | create/VMCreator.cc |
| `Stream.v`, `GridIngester.v` | create/GridIngester.cc and the iostream calls it makes |
| `CApi.v` | query/cvmquery.cc, query/cvmerror.cc, every function |
| `Fortran.v` | query/f77vmquery.cc, query/f77vmerror.cc, every function |
| `VMDB.v` | extensions/libsrc/cencalvmdb/CenCalVMDB.{h,icc,cc}, extensions/cencalvm/CenCalVMDB.py (`_configure`) |
| `VsGrader.v` | extensions/applications/vsgrader/VsGrader.cc (`_limitDiff`, `_grade`, `_pullData`, `_pushData`, `_indexToLonLat`), VsGrader.icc |
| `GetOpt.v` | the C library's getopt() as the applications call it |
| `QueryApp.v` | applications/query/cencalvmquery.cc; also examples/query/cpp/cencalvmcppquery.cc, which differs from it only in its usage text and in branches that are compiled without ALLVALS (it is defined at the top of the file) |
| `QueryStages.v` | the same functions of applications/query/cencalvmquery.cc, listing what was written at each point; that a stream's file holds an initial part of what was written to it, and nothing else, is assumed of the C++ library and the file system (`may_remain`) |
| `IsoStages.v` | the same for applications/query/cencalvmisosurface.cc; exit() and an exception that nothing catches leave the buffer of the output stream unwritten |
| `IsoApp.v` | applications/query/cencalvmisosurface.cc |
| `VsRun.v` | extensions/applications/vsgrader/VsGrader.cc (`run`, `_readParams`, `_initialize`, `_extract`, `_pack`) |
| `SmallApps.v` | applications/average/cencalvmavg.cc, applications/create/cencalvmgen.cc, applications/create/cencalvmpack.cc, applications/query/cencalvminfo.cc, extensions/applications/vsgrader/gradecencalvm.cc |
| `Report.v` | what average/AvgEngine.cc (printOctantInfo), create/VMCreator.cc, create/GridIngester.cc, cencalvmavg, cencalvmgen and cencalvmpack print |
| `Steps.v` | the same programs as `SmallApps.v` except cencalvminfo, as sequences of file operations (shown equal to the functions in `StepFacts.v`) |
| `CExample.v` | examples/query/c/cencalvmcquery.c |
| `FExample.v` | examples/query/f77/cencalvmf77query.f; list-directed reading and Fw.d, Iw are oracles |

## Findings (behaviour of the code that a user may not expect; each is a theorem)

* A WARNING after an ERROR overwrites it, so the status can say WARNING although
  a file could not be opened (C30_error_hidden).
* An unknown name in `queryVals` leaves an uninitialised selector behind, and the
  next query is undefined behaviour (C25_poisoned).
* A location whose coordinate is NaN is not rejected: undefined conversion
  (C04_nan_undefined).  FIXEDRES with the default resolution 0 is undefined
  (C07_zero_resolution_undefined).
* A location exactly on an upper face of the domain gets an address outside the
  root cube (C03).
* Averaging or packing a file onto itself destroys it (C17_same_file_destroyed,
  C35_pack_onto_itself); a database without schema is undefined behaviour
  (C17_missing_schema_undefined).
* A mean of equal-signed values can lie outside their range after rounding (C16).
* Grid ingestion: the test for zero resolutions builds an exception without
  throwing it; two zeros or an empty file are undefined behaviour (C39); a last
  name or number without white space after it is lost or rejected (C37); points
  outside the domain are stored at a bogus address (C38); a file that ends after
  the two resolutions is accepted silently.
* The Fortran interface cuts a file name at its first blank, reads beyond a name
  with no NUL after it, and reads a null pointer when asked for the message of a
  null handle (C34); it has no way to choose the values of a query.
* The C interface reports a null handle in `filenameExt`/`cacheSizeExt` under the
  name of the other function (C33_null_handle).
* The spatial database wrapper enforces the minimum Vs only when projecting
  downward (although Vp is always raised), only for the last of repeated names,
  and does not report an error in a later attempt (C43 examples); an error is
  never cleared, so all later calls throw (C43_error_sticks); the Python setting
  'fixedres' selects MAXRES (C49_fixedres_refuted).
* Limiting gradients a second time can change Vp again although Vs is already
  limited, because the difference is rounded before it is compared
  (C41_idempotent_machine_refuted).
* The query application: a failed write, or text that is not three numbers, ends
  the run silently with exit code 0 (C40_exit_0_complete_refuted, `lists`); a
  location for which the projection fails is undefined behaviour
  (C40_undefined_example); an unknown option is accepted when another option is
  joined to its value (C50_unknown_refused_refuted); when a database fails to
  close after an ERROR the destructor uses a deleted error handler
  (C40_first_error).
* The isosurface application ignores that a database could not be opened and
  aborts by an uncaught exception at the first point (C53_failed_open); -999 can
  be written although the speed is reached, when there is no data in the middle
  of the range (C52_no_data_unreached_refuted); a speed reached at the surface may
  be reported deeper (C52_surface_refuted); with squashing the number written is
  off by the elevation of the surface (C52_squashed_depth_refuted); one point
  where the speed is not reached ends the whole run (C53_first_stop), through
  exit(), which may lose lines still in the buffer; an error while looking for the
  surface is replaced by the warning of a later query, and a line is written as if
  the surface were at zero (C53_failed_elevation_refuted).
* The gradient program takes zero for a missing number, so a corner at sea level
  is refused (C54_sea_level_refuted); a parameter file that ends with its closing
  brace, without a newline, is refused (C54_final_brace_refuted); a file that ends
  after `cache-size =` makes it read an uninitialised variable
  (C54_no_value_undefined).
* The gradient program marks points without data with 10^10 everywhere and then limits
  them like all others: they leave the run with ordinary looking speeds, densities and
  quality factors, and only block and zone 999 tell (C56_voids_kept_refuted).
* The gradient program never looks at the status of its query object: an input that
  cannot be opened shows only as a failed assertion (C55_input_unopened).
* cencalvmisosurface leaves by exit(1) inside the search when the speed is not reached in a
  column: the lines of all points before it that are still in the buffer of the output
  stream are lost (C72).
* The columns that cencalvmquery writes are separated only by the padding of setw: at
  100 km below sea level (elevation -100000.0) or with a fault block of -1000 the
  number fills its column and is glued to the one before it, with exit code 0 and no
  message (C73_any_number_refuted).
* The programs around the library treat `-h` as an error: usage() ends with exit(1), so
  the exit(0) after it is never reached (C57_help).  Options joined with their values
  ("-ifile") are refused (C57_joined_refused), except that together with as many words
  that belong to no option they are accepted and those words passed over
  (C57_leftover_words_refuted).  The usage of cencalvmgen lists `-l`, which it does not
  accept.
* cencalvmgen exits with code 0 although a listed file ended within its header and gave
  nothing (C58_every_file_used_refuted).
* An averaging or packing that is killed destroys the previous output, and what it leaves
  can pass for a database (C67_old_or_new_refuted); there is no writing under another
  name followed by a rename.
* When the input of the gradient program cannot be closed while an exception leaves
  `_extract`, the destructor of the query object uses its deleted error handler
  (C69_not_closing_refuted).
* The C example program copies option values into arrays of 256 characters without
  a check, writes the same line for ever when the file of locations holds a word that
  is not a number, does not notice lines that cannot be written, and names the input
  file when it cannot create the output file (C61).
* The Fortran example program looks at the error code of the call that fetched the
  message instead of the one of the query, so an ERROR never ends the run, contrary to
  its comment (C62_error_ends_run_refuted).
* A read error while the cursor advances ends averaging and packing early without a
  message; failures on closing a written database are ignored by the averager and
  the creator (C64).

* cencalvmgen says "No fault block" exactly of those points it leaves out that have a
  fault block (and no zone); it says "Ignoring" of those without (C66_labels,
  C66_no_fault_block_refuted).  An exception while reading a grid is written twice on
  standard error, run together without a line break.
* The projector asks the library for its error number after every transformation and never
  clears it.  If the library leaves the number alone when a transformation works, one location
  that cannot be projected spoils all later projections, and queries of good locations
  read uninitialised memory (C77_poisoned, C77_query_undefined).
* Averaging two water octants, one with Vs 0 and one with Vs -999 (no data), gives Vs -499.5
  (C78_example_values); rock hides all water in the same octant, so a coarse octant that is
  mostly sea has the values of the rock in it (C78_stored).
* A query for a shortest period returns the average of a water octant (negative Vs) however
  coarse it is, because `edgeLen / Vs > minPeriod` is false for negative Vs; the other kinds of
  query report no data there (C79_water).
* Raising the shear speed of water from 0 to 10 m/s turns it into rock, and the averaged shear
  speeds of the octants around it fall (C86_kinds_refuted).

## Not modelled

Build system, memory exhaustion, cache behaviour of etree, progress messages of the
gradient program, the wording of usage texts, how standard output and standard error
interleave, SWIG interface files, CppUnit tests.  The C++ example program is
`cencalvmquery` with another usage text (C40, C50, C51).

## Seeded bugs

`seeded/LOG.jsonl` has one line per edit of the model in a scratch copy.
`lemmas_failed` are the proofs that no longer check; the scratch run replaces each
of them by an admission and goes on.  `theorems_failed` are the property theorems
whose own proof fails or that then rest on such an admission.  So an entry there
says that the proof does not survive the edit; it does not by itself show that each
listed statement is false of the edited program.  Edits with an empty list are the
important ones: the statements were too weak, and `theorems_tightened` names what
was added.
