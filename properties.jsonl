{"id": "C01", "title": "Ancestor octants contain their descendants", "statement": "Computing the ancestor of an octant at a coarser level yields the one octant of that level, aligned to the octant grid, whose cube contains the cube of the given octant; ancestors of ancestors are ancestors; asking for a level that is not strictly coarser trips the assertion and never returns an address.", "quantifier": "every octant address (x, y, z, level) with 32-bit ticks and every requested level", "why_tests_cant": "The address space has 2^96 x 32 members; a mask or shift that is wrong at one level only shows at that level and tick pattern.", "anchors": ["libsrc/cencalvm/storage/Geometry.cc: findAncestor"]}
{"id": "C02", "title": "A location maps to the octant that contains it", "statement": "For a location whose rotated model coordinates lie in the root cube and not on its upper faces, the address returned for a level is aligned to that level, lies inside the root, and its octant contains the location exactly (lower bound <= coordinate < upper bound), in spite of floating-point division and truncation.", "quantifier": "every triple of finite double coordinates in [0, ROOTLEN) and every level 0..31", "why_tests_cant": "An off-by-one octant would appear only for doubles adjacent to an octant face; there are too many to sample and the test uses one location.", "anchors": ["libsrc/cencalvm/storage/GeomCenCA.cc: lonLatElevToAddr"]}
{"id": "C03", "title": "Upper faces of the domain map outside the root octant", "statement": "A location exactly on an upper face of the domain is accepted (return code 0) but the returned tick on that axis is 2^31 at every level, the first tick outside the root octant, so no stored octant contains it.", "quantifier": "every level 0..31 and every location with a coordinate equal to ROOTLEN", "why_tests_cant": "The exact boundary value has measure zero; no test queries it.", "anchors": ["libsrc/cencalvm/storage/GeomCenCA.cc: lonLatElevToAddr"]}
{"id": "C04", "title": "Locations outside the model domain are rejected", "statement": "A location with a rotated coordinate below 0 or above ROOTLEN (including infinities) gets return code 1 and the all-ones address, and every type of query then reports no data without touching the detailed database; a location with a NaN coordinate is not rejected and reaches an undefined float-to-integer conversion.", "quantifier": "every triple of doubles (finite, infinite, NaN) and every level 0..31", "why_tests_cant": "Needs every out-of-range and special double; unit tests use a few interior points.", "anchors": ["libsrc/cencalvm/storage/GeomCenCA.cc: lonLatElevToAddr", "libsrc/cencalvm/query/VMQuery.cc: _queryMax, _queryFixed, _queryWave"]}
{"id": "C05", "title": "Resolutions are nested: coarse address is the ancestor of the fine address", "statement": "For one location, the octant address computed at a coarse level equals the ancestor (at that level) of the octant address computed at any finer level.", "quantifier": "every in-domain location and every pair of levels", "why_tests_cant": "Depends on rounding of two different divisions for every location; tests check six levels at one location against the same formula.", "anchors": ["libsrc/cencalvm/storage/GeomCenCA.cc: lonLatElevToAddr", "libsrc/cencalvm/storage/Geometry.cc: findAncestor"]}
{"id": "C06", "title": "Octant centroid elevation round-trips exactly", "statement": "The elevation reported for the centroid of an octant, converted back at the same level, gives the same vertical tick, and the reported elevation is the exact real centroid elevation (no rounding error).", "quantifier": "every level 0..31 and every aligned vertical tick inside the root", "why_tests_cant": "2^31 ticks times 32 levels; the test checks one octant within a tolerance.", "anchors": ["libsrc/cencalvm/storage/GeomCenCA.cc: lonLatElevToAddr, addrToLonLatElev"]}
{"id": "C07", "title": "Level and edge length are inverse", "statement": "The level computed for the edge length of level k is k, for every k, given only that the C library logarithm is accurate to within a stated relative error; more generally the chosen level is the one whose edge length is nearest to the resolution on a logarithmic scale, away from ties.", "quantifier": "every level 0..31, every positive resolution, every logarithm implementation within the error bound", "why_tests_cant": "The test pins one libm; other implementations and the full double range cannot be enumerated.", "anchors": ["libsrc/cencalvm/storage/GeomCenCA.icc: edgeLen, level"]}
{"id": "C08", "title": "Averaging keeps every input octant", "statement": "After averaging, every octant of the input database is in the output database exactly once, at the same address, with bit-identical values.", "quantifier": "every finite input database of non-overlapping octants at levels 1..31 in etree order", "why_tests_cant": "Inputs are arbitrary octrees; tests use one 12-octant tree.", "anchors": ["libsrc/cencalvm/average/AvgEngine.cc: fillOctants, _averageOctant"]}
{"id": "C09", "title": "Averaging adds exactly the missing ancestors", "statement": "The output database contains, besides the input octants, exactly the proper ancestors of input octants, each exactly once and flagged as interior; nothing else.", "quantifier": "every finite input database of non-overlapping octants at levels 1..31 in etree order", "why_tests_cant": "Ragged trees make parents open and close in any pattern; a test covers one shape.", "anchors": ["libsrc/cencalvm/average/AvgEngine.cc: _findParent, _createOctant, _processOctant, _finishProcessing"]}
{"id": "C10", "title": "Interior octants hold the mean of their children, solid before water", "statement": "Every interior octant of the output holds, for each of the six real properties, the arithmetic mean of that property over those children that have solid values (Vs > 0); if no child is solid, over the children with water values (Vp > 0); if there are neither, the no-data value -999. Children are themselves leaves or interior octants of the output. Fault block and zone are -999.", "quantifier": "every finite input database of non-overlapping octants at levels 1..31 in etree order, any payload values without NaN shear speed", "why_tests_cant": "The order in which solid, water and void children arrive matters in the code; all orders and shapes cannot be tested.", "anchors": ["libsrc/cencalvm/average/AvgEngine.cc: _addToParent, _processOctant", "docs/query.md"]}
{"id": "C11", "title": "Averaging summary counts are right", "statement": "The reported counts satisfy: input = number of input octants, interior = number of distinct proper ancestors, total = input + interior; every interior octant whose children are not all present is counted in exactly one of the eight incomplete classes, according to which children are present.", "quantifier": "every finite input database of non-overlapping octants in etree order", "why_tests_cant": "A relation over all trees; the test does not look at the counters.", "anchors": ["libsrc/cencalvm/average/AvgEngine.cc: printOctantInfo, _processOctant"]}
{"id": "C12", "title": "Averaging a well-formed database never fails and leaves nothing half-done", "statement": "On a well-formed input and working storage the run ends normally: no exception, no assertion failure, no access outside the table of pending octants, no octant left with the uninitialised values it was first appended with.", "quantifier": "every finite input database of non-overlapping octants at levels 1..31 in etree order", "why_tests_cant": "Needs an invariant over all traversal histories.", "anchors": ["libsrc/cencalvm/average/AvgEngine.cc"]}
{"id": "C13", "title": "Averaging appends octants in etree order", "statement": "The sequence of octants appended to the output is strictly increasing in etree (preorder, Z-order) order, as the append interface requires: an ancestor always precedes its descendants.", "quantifier": "every finite input database of non-overlapping octants in etree order", "why_tests_cant": "The storage layer rejects or corrupts on out-of-order appends; all inputs must respect it.", "anchors": ["libsrc/cencalvm/average/AvgEngine.cc: _createOctant, _averageOctant"]}
{"id": "C14", "title": "Averaging rejects overlapping input instead of averaging it", "statement": "If the input holds an octant below the root together with one of its own descendants, the run ends with an exception; it never completes normally. A database that was already averaged is rejected in this way if it has an octant of level 2 or finer; one whose octants are all at level 1 comes out of a second averaging unchanged, with the same counts.", "quantifier": "every sorted input in which some octant (level >= 1) is an ancestor of another", "why_tests_cant": "All positions and depths of the overlap, and everything processed before it, must be considered.", "anchors": ["libsrc/cencalvm/average/AvgEngine.cc: _addToParent, _createOctant"]}
{"id": "C15", "title": "A root-level input octant is dropped", "statement": "An input octant at level 0 is not copied to the output and not counted: a database consisting of the root octant alone yields an empty output database.", "quantifier": "every payload of a root octant", "why_tests_cant": "A corner case no test builds; it contradicts the rule that leaves are preserved.", "anchors": ["libsrc/cencalvm/average/AvgEngine.cc: _averageOctant"]}
{"id": "C16", "title": "Averages are within rounding error of the exact mean (not always within the range of the children)", "statement": "For each real property, the averaged value of an interior octant over n children differs from the exact mean by at most M*((1+2^-24)^(n+1)-1)+2^-150, where M bounds the magnitudes averaged. It is not guaranteed to lie between the smallest and largest child value: three children with the same value can average to a smaller value.", "quantifier": "every averaged octant with one to eight contributing children whose values are finite and at most 2^124 in magnitude", "why_tests_cant": "Rounding of every float combination; 2^(32*8) cases.", "anchors": ["libsrc/cencalvm/average/AvgEngine.cc: _addToParent, _processOctant"]}
{"id": "C17", "title": "The averager validates its input before touching the output file", "statement": "If the input file cannot be opened, or its payload size or schema differs from the expected one, averaging throws and the output file is left as it was; if input and output name the same file and validation succeeds, the original data are destroyed.", "quantifier": "every file system state, every pair of file names and every schema string", "why_tests_cant": "All initial contents of the output and all failure points; tests only run the success case.", "anchors": ["libsrc/cencalvm/average/Averager.cc: average"]}
{"id": "C18", "title": "MAXRES queries return the finest stored leaf, never an average", "statement": "A MAXRES query returns the stored values of the finest octant containing the location if that octant is a leaf; if the finest octant is interior or there is none, it reports no data.", "quantifier": "every database, location and prior query history", "why_tests_cant": "All trees and all locations.", "anchors": ["libsrc/cencalvm/query/VMQuery.cc: _queryMax"]}
{"id": "C19", "title": "FIXEDRES queries never return values coarser than asked from averages", "statement": "A FIXEDRES query returns the values of the finest stored octant containing the location at or above the requested level, except that an interior octant coarser than the requested level is reported as no data.", "quantifier": "every database, location, resolution and prior history", "why_tests_cant": "All trees, levels and locations.", "anchors": ["libsrc/cencalvm/query/VMQuery.cc: _queryFixed"]}
{"id": "C20", "title": "WAVERES queries stop at the first octant that resolves the wavelength", "statement": "A WAVERES query terminates on every database; starting from the finest octant it climbs parent by parent and stops at the first octant for which edge length / Vs is not smaller than the requested period (or Vs is not positive, or the root is reached); each real value returned is half the sum of the value in that octant and in the octant visited just before it (or the octant itself if no climb was needed), while fault block and zone come from the octant where it stopped.", "quantifier": "every database, location, period and prior history", "why_tests_cant": "All trees and velocity profiles; termination for all of them.", "anchors": ["libsrc/cencalvm/query/VMQuery.cc: _queryWave"]}
{"id": "C21", "title": "WAVERES falls back to the unaveraged octant when a parent is missing", "statement": "If an octant needed on the way up is missing from the database, the values returned are exactly those of the finest octant found first, and the status is WARNING with a message naming the problem (unless the location then also counts as having no data).", "quantifier": "every database with a missing ancestor at any depth of the climb", "why_tests_cant": "Any depth, any database; not covered by tests at all.", "anchors": ["libsrc/cencalvm/query/VMQuery.cc: _queryWave"]}
{"id": "C22", "title": "No data is reported completely and only when there is none", "statement": "When the location is not found in any open database, the real values requested are -999, fault block and zone 0, the status is WARNING, the message is the no-data message for the location, and exactly one line with the location is appended to the log; when a value with a non-zero fault block is found nothing is logged and the status is not changed by the search.", "quantifier": "every configuration, database pair, location and prior history", "why_tests_cant": "A relation over all histories and databases including log contents.", "anchors": ["libsrc/cencalvm/query/VMQuery.cc: query, _setNoData", "libsrc/cencalvm/storage/ErrorHandler.cc"]}
{"id": "C23", "title": "The extended database is used exactly when the detailed one has no data", "statement": "With an extended database open, the values returned are those of the detailed database if its answer has a non-zero fault block and otherwise those the same query type gives on the extended database for the same octant address; without one they are always the detailed answer.", "quantifier": "every pair of databases, query type, location and history", "why_tests_cant": "All pairs of databases.", "anchors": ["libsrc/cencalvm/query/VMQuery.cc: query"]}
{"id": "C24", "title": "Requested values come back in the requested order", "statement": "After selecting value names (compared without regard to case), the i-th number returned by every later query is the value named by the i-th name, for any number of names, with repetitions allowed.", "quantifier": "every list of valid names in any capitalisation, every query", "why_tests_cant": "Unbounded lists and all capitalisations.", "anchors": ["libsrc/cencalvm/query/VMQuery.cc: queryVals, query"]}
{"id": "C25", "title": "An unknown value name is reported and poisons later queries", "statement": "If any requested name is unknown the status becomes ERROR with a message; the selection is nevertheless replaced, and the next query reads an uninitialised selector (undefined behaviour).", "quantifier": "every list of names containing an unknown one", "why_tests_cant": "The indeterminate read is invisible to a test that happens to see a harmless value.", "anchors": ["libsrc/cencalvm/query/VMQuery.cc: queryVals, query"]}
{"id": "C26", "title": "Setters ignore invalid settings", "statement": "Cache sizes and query resolution change only when the given number is positive, an unknown query type leaves the query type unchanged and sets ERROR, an empty list of names leaves the selection unchanged; no setter changes any other setting.", "quantifier": "every sequence of setter calls with arbitrary arguments", "why_tests_cant": "Unbounded histories of calls.", "anchors": ["libsrc/cencalvm/query/VMQuery.icc", "libsrc/cencalvm/query/VMQuery.cc: queryType, queryVals"]}
{"id": "C27", "title": "Opening and closing are idempotent and errors are reported", "statement": "Opening an already open query object changes nothing; closing a closed one changes nothing; a failed open leaves the database closed and sets ERROR naming the file; after close both databases are closed even if closing failed.", "quantifier": "every history of open and close calls and every outcome of the storage library", "why_tests_cant": "All interleavings and failure outcomes.", "anchors": ["libsrc/cencalvm/query/VMQuery.cc: open, close"]}
{"id": "C28", "title": "Squashing shifts the query by the ground surface and nothing else", "statement": "With squashing on and the elevation above the limit, the material values returned are those an unsquashed query returns at elevation + surface elevation (when a surface is found); at or below the limit, or with squashing off, or when no surface is found, they are those of the unsquashed query.", "quantifier": "every database pair, location, limit and query type", "why_tests_cant": "All combinations of surfaces and locations.", "anchors": ["libsrc/cencalvm/query/VMQuery.cc: query, _queryElev"]}
{"id": "C29", "title": "Queries are read-only and history independent", "statement": "A query changes no setting, no open database and no file except the log; the values it returns depend only on settings, databases and location, not on earlier queries.", "quantifier": "every history of calls before the query", "why_tests_cant": "Unbounded histories.", "anchors": ["libsrc/cencalvm/query/VMQuery.cc: query"]}
{"id": "C30", "title": "The status reflects the last event; a no-data warning hides an earlier error", "statement": "The status and message of the error handler are those of the last error or warning reported since the last reset (OK and empty if none); in particular a warning after an error leaves the status WARNING, so ERROR is not sticky, and a query never resets the status.", "quantifier": "every sequence of error, warning, reset and query calls", "why_tests_cant": "Unbounded histories.", "anchors": ["libsrc/cencalvm/storage/ErrorHandler.icc", "libsrc/cencalvm/query/VMQuery.cc: query"]}
{"id": "C31", "title": "The log file holds exactly the messages logged while enabled", "statement": "After any sequence of calls, the content written to the named log file is the concatenation, in order, of the messages logged while logging was on, since the file name was last set; messages logged while off or without a name are discarded.", "quantifier": "every sequence of logFilename, loggingOn and log calls", "why_tests_cant": "Unbounded histories, including renames and re-enabling.", "anchors": ["libsrc/cencalvm/storage/ErrorHandler.cc"]}
{"id": "C32", "title": "A projection failure is undefined behaviour for the caller", "statement": "If the projection library reports an error for the location, the exception is caught and the status set to ERROR, but the query then reads the never-written payload: its fault block test and every value copied are indeterminate.", "quantifier": "every location for which projection fails", "why_tests_cant": "Indeterminate memory usually looks harmless in a test.", "anchors": ["libsrc/cencalvm/query/VMQuery.cc: query", "libsrc/cencalvm/storage/Projector.cc: project"]}
{"id": "C33", "title": "The C interface is the C++ interface plus a null check", "statement": "Every C function called with a null handle returns its error code, touches nothing and prints a message; with a valid handle it performs exactly the corresponding C++ call and returns the resulting status; destroying always returns success.", "quantifier": "every function of the C interface, every handle, argument and object state", "why_tests_cant": "All functions times all states.", "anchors": ["libsrc/cencalvm/query/cvmquery.cc", "libsrc/cencalvm/query/cvmerror.cc"]}
{"id": "C34", "title": "The Fortran interface forwards to the C interface, with three traps", "statement": "Every Fortran function stores the code the C function returns; a file name is cut at the first blank and skips leading blanks whatever length is passed; the message function reads a null pointer when the handle is null, and fills exactly the given buffer without guaranteeing a terminator.", "quantifier": "every function of the Fortran interface, every argument string and length", "why_tests_cant": "All strings and lengths.", "anchors": ["libsrc/cencalvm/query/f77vmquery.cc", "libsrc/cencalvm/query/f77vmerror.cc"]}
{"id": "C35", "title": "Packing preserves the database", "statement": "Packing produces a database with the same octants, values and description as the unpacked one, in the same order, and with the standard schema (the unpacked one's, when that is the standard one), as far as the cursor on the unpacked one gets (C64); a failure at any other storage call raises an exception; an empty unpacked database cannot be packed; packing a database onto itself destroys it.", "quantifier": "every unpacked database and every failure outcome", "why_tests_cant": "All databases.", "anchors": ["libsrc/cencalvm/create/VMCreator.cc: packDB"]}
{"id": "C36", "title": "Grid ingestion stores every point with data once, in SI units", "statement": "For a grid file whose header is consistent, exactly the points with non-zero fault block and zone are inserted, in file order, with elevation, depth, wave speeds and density multiplied by 1000 (correctly rounded) unless they are -999, quality factors unchanged, at the level of the grid; the counts reported add up to the number of points; a line that cannot be read or an octant that is already stored stops the program after the earlier points have been stored. The whole program gives an output database with exactly the records of all listed grid files.", "quantifier": "every grid file content", "why_tests_cant": "All files.", "anchors": ["libsrc/cencalvm/create/GridIngester.cc: _addGrid", "libsrc/cencalvm/create/VMCreator.cc: insert"]}
{"id": "C37", "title": "List and grid files must end in white space", "statement": "The list of grid files yields all its names if the file ends in white space and silently loses the last name otherwise; a grid file whose last number ends exactly at the end of the file is rejected; a list that cannot be read is refused with a message that names it, and a run with a file name missing stops before it touches anything.", "quantifier": "every file content", "why_tests_cant": "All file contents; tests use files with a final newline.", "anchors": ["libsrc/cencalvm/create/GridIngester.cc: run, _readParams, _addGrid"]}
{"id": "C38", "title": "A grid point outside the domain is stored at a bogus address", "statement": "Inserting a point outside the model domain does not fail: the point is inserted at tick 2^32-1 on each axis, so it cannot be found by any query in the domain.", "quantifier": "every out-of-domain point", "why_tests_cant": "No test inserts one.", "anchors": ["libsrc/cencalvm/create/VMCreator.cc: insert"]}
{"id": "C39", "title": "Grid resolution checks accept only matching grids", "statement": "A grid is accepted only if horizontal/vertical resolution is within 1e-6 of the vertical exaggeration and the horizontal resolution within 1e-6 of an octant edge length; a zero resolution is not reported by its own check, and two zero resolutions reach undefined behaviour.", "quantifier": "every pair of resolutions", "why_tests_cant": "All doubles.", "anchors": ["libsrc/cencalvm/create/GridIngester.cc: _addGrid"]}
{"id": "C40", "title": "The query application writes one line per location, in order", "statement": "If the run gets to the locations and every write succeeds, the application writes exactly one output line per location that is followed by white space, in input order, with the values a query for that location alone returns; it reports every answer that is not OK; it stops with exit code 1 after the first ERROR; it silently ignores everything from the first location that is not three numbers, and a last location that ends at end of file. That exit code 0 implies a line for each location is false: a failed write ends the run without a message.", "quantifier": "every list of locations, every text that holds them, every database, all settings", "why_tests_cant": "Unbounded inputs.", "anchors": ["applications/query/cencalvmquery.cc: main"]}
{"id": "C41", "title": "Vs gradient limiting works in both directions", "statement": "Limiting a profile makes every difference between neighbouring shear speeds at most the limit (in exact arithmetic; up to the stated rounding in floating point), never raises a value, changes exactly the entries flagged as changed, and is idempotent; the result is the largest profile below the input that satisfies the limit.", "quantifier": "every profile of any length and every non-negative limit", "why_tests_cant": "All profiles.", "anchors": ["extensions/applications/vsgrader/VsGrader.cc: _limitDiff"]}
{"id": "C42", "title": "Grading three directions in turn limits all three gradients", "statement": "After grading vertically, lengthwise and widthwise, all three directions satisfy their limits at once: a later pass does not undo an earlier one. Vp, density, Qp and Qs of every point keep their ratios to Vs.", "quantifier": "every three-dimensional grid of any size", "why_tests_cant": "Interaction between passes over all grids.", "anchors": ["extensions/applications/vsgrader/VsGrader.cc: _grade"]}
{"id": "C43", "title": "The spatial database wrapper fills voids with bounded effort and clips only as documented", "statement": "With downward projection on, a query whose shear speed is negative is repeated at most eight times at elevations lowered by 25 m x 2^i, stopping at the first non-negative shear speed; the result is then clipped to the minimum shear speed, Vp and density floors only for positive values; ERROR status becomes an exception and WARNING becomes return code 1 with status reset. The minimum shear speed and the projection switch in force are those of the last calls that set them, whatever else was called in between.", "quantifier": "every database behaviour, location, setting and history of calls", "why_tests_cant": "All responses of the underlying query.", "anchors": ["extensions/libsrc/cencalvmdb/CenCalVMDB.cc: query"]}
{"id": "C44", "title": "End to end: averaged databases answer queries consistently", "statement": "After averaging a well-formed database, a MAXRES query inside an input octant returns that octant's values, a FIXEDRES query at a coarser level returns the recursive mean for the octant containing the location, and a location in no input octant has no data. With an extended database that was averaged too, the answer is that of the detailed input where its fault block is not 0 and that of the extended input elsewhere, for every kind of query.", "quantifier": "every well-formed input database and every location in the domain", "why_tests_cant": "Composition over all trees and locations.", "anchors": ["libsrc/cencalvm/average/AvgEngine.cc", "libsrc/cencalvm/query/VMQuery.cc"]}
{"id": "C45", "title": "Horizontal placement: rotation and round trip", "statement": "The model coordinates computed for a projected point are those of the exact rotation by the azimuth of 53.638 degrees about the corner of the root cube to within 2e-7 m, and converting an octant to the location of its centroid and back at the same level returns the same octant, at every level 0..31.", "quantifier": "every octant of every level, every projection that undoes its inverse to 5e-5 m, every cosine/sine pair with c^2+s^2 within 1e-15 of 1", "why_tests_cant": "2^93 octants; the unit test converts one address with a tolerance of 1e-6 degrees.", "anchors": ["libsrc/cencalvm/storage/GeomCenCA.cc: GeomCenCA, lonLatElevToAddr, addrToLonLatElev"]}
{"id": "C46", "title": "The elevation value is the ground surface of the column", "statement": "The value named elevation is the elevation of the centre of the octant that holds the location plus the depth stored there (the finest octant of the detailed database if it is not an average, else the finest of the extended database), and -999 when there is no such octant or the location is outside the domain; it does not depend on the query type.", "quantifier": "all databases, locations and query types", "why_tests_cant": "Tests check a handful of points of one database; the claim ranges over every database, octant level and location.", "anchors": ["libsrc/cencalvm/query/VMQuery.cc:_queryElev", "libsrc/cencalvm/query/VMQuery.cc:query"]}
{"id": "C47", "title": "No exception escapes a query", "statement": "A query never ends by throwing an exception, whatever the state of the object, the databases, the projection library and the location: failures are turned into an ERROR status.", "quantifier": "all states, storage behaviours, arrays and locations", "why_tests_cant": "Requires considering every failure of every library call at every point.", "anchors": ["libsrc/cencalvm/query/VMQuery.cc:query"]}
{"id": "C48", "title": "Query objects do not interfere with each other", "statement": "A program may hold several query handles. Whatever the order in which calls on different handles are interleaved, each handle's configuration, error status, message and query results are exactly those it would have if the calls on the other handles had never been made, even when handles share a log file or a database.", "quantifier": "all finite interleavings of calls on any number of live handles, all arguments, all database contents and environments", "why_tests_cant": "The number of interleavings and of shared-resource combinations is unbounded; a test shows only a few orders.", "anchors": ["libsrc/cencalvm/query/cvmquery.cc", "libsrc/cencalvm/query/cvmerror.cc", "libsrc/cencalvm/query/VMQuery.cc"]}
{"id": "C49", "title": "Configuring the Python wrapper gives the settings that were asked for", "statement": "Configuring the Python spatial database sets file names, resolution, squashing, minimum shear speed and projection as given, ignores sizes and resolutions that are not positive, rejects unknown kinds of query without changing anything, and selects the kind of query asked for. The last part is false for 'fixedres', which selects the finest resolution. The wrapper's C++ object itself takes the kinds 0, 1 and 2, changes nothing else, throws an error left from before, and aborts for any other number.", "quantifier": "all inventories, numbers of kinds and all states of the object", "why_tests_cant": "All combinations of settings.", "anchors": ["extensions/cencalvm/CenCalVMDB.py: _configure", "extensions/libsrc/cencalvmdb/CenCalVMDB.cc: queryType"]}
{"id": "C50", "title": "The command line of the query application", "statement": "Options given as separate words are accepted in any order, the last value of each counts, and the run goes on exactly if input, output and database are named; -h exits with code 0; a stray word or an unknown option among separate options exits with code 1; in the last two cases no file is touched. That an unknown option is always refused is false: a value joined to its option letter is counted as two words, which makes up for it.", "quantifier": "every sequence of options and values", "why_tests_cant": "Unbounded sequences of words.", "anchors": ["applications/query/cencalvmquery.cc: parseArgs"]}
{"id": "C51", "title": "A query run that cannot start says why and writes no output", "statement": "If a database cannot be opened, the resolution is negative, the kind of query is unknown, the input cannot be read or the output cannot be created, the application exits with code 1 and that message, and the only file it changes is the log file, which is emptied; in every other case it gets to the locations.", "quantifier": "every configuration, every outcome of opening files and databases", "why_tests_cant": "All combinations of settings and failures.", "anchors": ["applications/query/cencalvmquery.cc: main"]}
{"id": "C52", "title": "The isosurface application writes how deep a speed is reached", "statement": "For a point whose surface speed is below the target and whose speed at the lowest elevation reaches it, the application exits with code 0 and writes the distance from the surface (the reported elevation, lowered in steps of 12.5 m to the first positive speed) to an elevation where the speed reaches the target while it does not at most 12.5 m higher (plus what inexact logarithms add); if speeds do not increase with elevation every lower elevation reaches the target and no elevation above does. Ranges in which the target is already reached at the surface give zero, ranges without data at the bottom -999, and ranges where it is not reached an error, each under the stated condition on the middle of the range. False: -999 means the speed is reached nowhere; a target reached at the surface is always reported there; with squashing the number written is the depth below the surface.", "quantifier": "every point, every vertical profile of speeds a database may hold, every range and target", "why_tests_cant": "All profiles and all floating point ranges; the number of bisection steps comes from logarithms.", "anchors": ["applications/query/cencalvmisosurface.cc: queryElev, searchVs, main"]}
{"id": "C53", "title": "The isosurface application treats every point of a file as if it were alone", "statement": "A run over a file of points writes the lines, and the messages, of the runs over each point alone, in order, and exits with code 0 if those do; the first point whose run alone ends without a line, or crashes, ends the run in that way after the lines before it. A text lists exactly one sequence of points. The options are taken in any order, the last value of each counts; without target, input, output or database the usage is shown. A database that cannot be opened makes the program abort at the first point. If the elevation of the surface cannot be found for a point and the search reports nothing, no line is written and the run ends with exit code 1 and one message. False: the same without the condition on the search (a later warning replaces the error, and a line is written as if the surface were at zero).", "quantifier": "every text file, every sequence of points, every sequence of options, every outcome of the storage library", "why_tests_cant": "Unbounded sequences of points; the query object keeps state from point to point.", "anchors": ["applications/query/cencalvmisosurface.cc: parseArgs, initialize, main"]}
{"id": "C54", "title": "The program that limits gradients works with the settings of its parameter file", "statement": "From a file with the program's name, an opening brace, settings of the form name = value and a closing brace, in any layout and order and with letters of names in any case, the program takes for every setting the last value given (cache sizes that are not positive and negative query resolutions do not count) and keeps its own value for the cache size, query type and query resolution if none is given. If a number is missing, or the resolution of a query that needs one, it stops with a message that names it. A file that does not exist, has another name, an unknown setting, an unreadable number or an unknown kind of query, or that ends before its closing brace is followed by anything, makes it stop with a message, and no database is opened or changed.", "quantifier": "every text of that form, every number format, every earlier state of the program and of the storage", "why_tests_cant": "All layouts and orders of settings of any length.", "anchors": ["extensions/applications/vsgrader/VsGrader.cc: _readParams, run"]}
{"id": "C55", "title": "The program that limits gradients starts from a faithful copy of its input", "statement": "When the input opens and the points of the domain lie in distinct octants, the temporary file gets exactly one record for every point, in the octant that contains the point, with the values the input gives for the location of the point at the wanted resolution; where the input has no data all values are 10^10 with block and zone 999, and shear speeds below the smallest one are raised to it. The other files are untouched. An input that cannot be opened is not noticed: the program stops at an assertion when it asks for the first point. A temporary file that cannot be created gives an exception.", "quantifier": "every input database, kind of query, domain and state of the disk", "why_tests_cant": "All databases, all domains and all numbers of points; the query object keeps state between points.", "anchors": ["extensions/applications/vsgrader/VsGrader.cc: _extract", "extensions/applications/vsgrader/VsGrader.icc: _indexToLonLat, _indexToElev", "libsrc/cencalvm/query/VMQuery.cc: query", "libsrc/cencalvm/create/VMCreator.cc: insert"]}
{"id": "C56", "title": "A run of the gradient program leaves the limited model and nothing else", "statement": "With parameters that read well and storage that works, the output file holds exactly one record for every point of the domain, in storage order; the shear speeds are the largest ones that are nowhere above those of the input and differ between neighbouring points by at most the limit times the distance, up to a stated rounding error; Vp, density, Qp and Qs keep their ratios to Vs; depths, blocks and zones are those of the input. Whatever happens, no file other than the output and the temporary file changes; with bad parameters none changes, and the output does not change when the copy fails. False: points without data stay without data.", "quantifier": "every parameter file, input database, domain, outcome of every storage operation", "why_tests_cant": "All databases and failures at every point of the run.", "anchors": ["extensions/applications/vsgrader/VsGrader.cc: run, _initialize, _extract, _pack, _grade"]}
{"id": "C57", "title": "The programs around the library take their file names from the options and nothing else", "statement": "cencalvmavg, cencalvmgen, cencalvmpack and gradecencalvm run with the names given by their options, the last one of each kind, when the number of words is twice the number of options and no name is missing or empty; what then happens to the files is what the library call does, a call that returns gives exit code 0 in silence and an exception gives exit code 1 with its message. Every other command line, including any with -h, shows the usage, exits with code 1 and touches no file. A command line is read in one way only. False: a word that belongs to no option is always refused; as many of them as there are options joined with their values are passed over.", "quantifier": "every list of words, every state of the disk", "why_tests_cant": "All lists of words of any length in any order.", "anchors": ["applications/average/cencalvmavg.cc: parseArgs, main", "applications/create/cencalvmgen.cc: parseArgs, main", "applications/create/cencalvmpack.cc: parseArgs, main", "extensions/applications/vsgrader/gradecencalvm.cc: parseArgs, main"]}
{"id": "C58", "title": "Exit code 0 of a program means that its output file is complete", "statement": "Unless a cursor stopped early or a written file could not be closed (C64): if cencalvmavg exits with code 0 its input was a database of the expected layout and its output holds the averaged octants with the description of the input; if cencalvmpack does, the output is the input record by record; if cencalvmgen does, every listed grid file was there and the output holds exactly the records of all points with data of every file that starts with a header; if gradecencalvm does, its parameter file was read, its input could be opened and the output holds one record for every point of the grid, with the values of the input at the point limited as C56 says. The programs end with code 0 in silence or with code 1 and one message, no exception leaves them, and however they end no file but the output and the temporary file has changed. False: exit code 0 of cencalvmgen tells that every listed file was used.", "quantifier": "every command line, text file, state of the disk and outcome of every storage operation", "why_tests_cant": "Failures of the storage library at every point, all texts.", "anchors": ["applications/average/cencalvmavg.cc: main", "applications/create/cencalvmgen.cc: main", "applications/create/cencalvmpack.cc: main", "libsrc/cencalvm/create/GridIngester.cc: run, _addGrid"]}
{"id": "C59", "title": "From text files to answers: every grid point is found again with its own values", "statement": "Grid files whose octants do not overlap are made into a database by cencalvmgen and averaged by cencalvmavg, both with exit code 0 when the storage works; a query at highest resolution in the result gives, at any place inside the model, the values in SI units of the grid point in whose octant the place lies, and no data if there is none; in particular each grid point with data has its own values at its own coordinates.", "quantifier": "every set of grid files, every location, every kind and number of values asked for", "why_tests_cant": "All grids and all locations; four programs and libraries act one after the other.", "anchors": ["applications/create/cencalvmgen.cc: main", "applications/average/cencalvmavg.cc: main", "libsrc/cencalvm/create/GridIngester.cc: run", "libsrc/cencalvm/average/Averager.cc: average", "libsrc/cencalvm/query/VMQuery.cc: query"]}
{"id": "C60", "title": "cencalvminfo describes the database it is given", "statement": "The program writes the metadata, the schema and the number of octants in decimal and exits with code 0 exactly if the file opens, has metadata and a schema, and closes; otherwise the usage with code 1 for a wrong number of words, or one message with code -1 that names what is missing, after what was found before. For a database that cencalvmgen has built, its temporary file written and read without an unnoticed storage failure (see C64), the number is that of the grid points with data.", "quantifier": "every list of words, every database", "why_tests_cant": "All databases of any size and all combinations of failures.", "anchors": ["applications/query/cencalvminfo.cc: main, parseArgs"]}
{"id": "C61", "title": "The C example program does what cencalvmquery does, on files that hold only numbers", "statement": "For words shorter than 256 characters the example program for the C interface understands the command line as cencalvmquery does, refuses to start in the same cases, and, if the file of locations holds only numbers, gives the same output, log, messages and exit code; the first ERROR ends it with exit code 1. A longer name is copied beyond the end of an array; a word that is not a number makes it write the same line for ever; lines that cannot be written are lost without a message and exit code 0.", "quantifier": "every command line, database, file of locations, behaviour of the operating system", "why_tests_cant": "All command lines and all texts; a test cannot show that a program never ends.", "anchors": ["examples/query/c/cencalvmcquery.c: main, parseArgs", "libsrc/cencalvm/query/cvmquery.cc", "libsrc/cencalvm/query/cvmerror.cc"]}
{"id": "C62", "title": "The Fortran example program writes a line for every location and never stops at an ERROR", "statement": "If its databases and files open, the example program for the Fortran interface prints one message for each query that is not OK and writes one line for each location, with the values of the query; it ends normally and without a word about it even if queries failed with ERROR, although it says that it bails out. An existing output file is never overwritten. Names must be followed by a null character somewhere in memory, else the run is undefined.", "quantifier": "every setting of the parameters, database, list of locations, contents of memory behind the constants, behaviour of the Fortran system", "why_tests_cant": "All locations and answers; the sample locations never give an ERROR; what follows a constant in memory depends on the compiler.", "anchors": ["examples/query/f77/cencalvmf77query.f", "libsrc/cencalvm/query/f77vmquery.cc", "libsrc/cencalvm/query/f77vmerror.cc: cencalvm_error_message_f"]}
{"id": "C63", "title": "A storage call that fails during averaging is reported", "statement": "If creating the output, writing its header, reading an octant, starting or ending the append, appending any octant or updating any interior octant fails, averaging throws and only the output file has changed; otherwise it returns exactly the result of a run without failures. It never reaches an assertion failure or undefined behaviour, whatever combination of calls fails.", "quantifier": "every well-formed input database and every combination of results of the storage calls", "why_tests_cant": "The failure can hit any of the calls, in any state of the pending table; tests use storage that works.", "anchors": ["libsrc/cencalvm/average/AvgEngine.cc: fillOctants, _averageOctant, _updateOctant, _createOctant", "libsrc/cencalvm/average/Averager.cc: average"]}
{"id": "C64", "title": "Two kinds of storage failures go unnoticed", "statement": "If the cursor on the input fails to advance, averaging and packing take this for the end of the data and return normally with the octants seen so far; if the averaged database, or the database that collects the grid points, cannot be closed, the program returns normally although the contents of the file are unspecified. So a normal return does not mean that every octant of the input is in the output.", "quantifier": "every input and every record at which the cursor stops", "why_tests_cant": "Needs a read error at a chosen record or a failing flush on close.", "anchors": ["libsrc/cencalvm/average/AvgEngine.cc: fillOctants", "libsrc/cencalvm/average/Averager.cc: average", "libsrc/cencalvm/create/VMCreator.cc: packDB, closeDB"]}
{"id": "C65", "title": "The report printed after averaging tells the truth", "statement": "After a successful averaging the text on standard output gives, line by line, the number of octants of the input and of the output, the number of octants that were added, and the numbers of those that lack children at the far side of one, two or three axes or in another way, and these numbers are those of the database on disk; cencalvminfo prints the same number of octants. If averaging fails nothing is printed on standard output. A quiet averager prints nothing and does the same to the files.", "quantifier": "every well-formed input database and every command line of cencalvmavg", "why_tests_cant": "The counts must be right for every shape of tree; the unit tests compare no printed text.", "anchors": ["libsrc/cencalvm/average/AvgEngine.cc: printOctantInfo", "libsrc/cencalvm/average/Averager.cc: average", "applications/average/cencalvmavg.cc: main", "applications/query/cencalvminfo.cc: main"]}
{"id": "C66", "title": "What cencalvmgen prints about points and files is complete and correct", "statement": "For every grid file in order cencalvmgen prints a line when it begins and one when it is done with the numbers of points stored and left out, and on standard error one line per left-out point with its coordinates, in order; when it stops with an exception, the file, the numbers of its points stored and left out so far, and the message are given. With exit code 0 all listed files are accounted for and the text is exactly this. Printing changes nothing that is done to files, and a quiet ingester prints nothing but the account of an exception. The label 'No fault block' is attached exactly to the left-out points that do have a fault block (but no zone).", "quantifier": "every list of grid files, every content of the files, every result of the storage calls, every command line", "why_tests_cant": "All files and all positions of points without data; no test looks at the printed text.", "anchors": ["libsrc/cencalvm/create/GridIngester.cc: run, _addGrid", "libsrc/cencalvm/create/VMCreator.cc: openDB, closeDB, packDB", "applications/create/cencalvmgen.cc: main"]}
{"id": "C67", "title": "Killing a program that writes a database does no harm beyond the files it writes, and it can be run again", "statement": "When cencalvmavg, cencalvmpack, cencalvmgen or gradecencalvm is killed at any moment, every file other than those it was told to write (output, temporary file) is as before, whatever is left in the files that were open for writing. Running the same command line again then ends exactly as if the first run had not happened, with the same files, provided it does not write the database it reads and the output files can be created. A killed cencalvmgen has either changed the temporary file only, or the temporary file is complete and cencalvmpack from it to the output gives what cencalvmgen would have given. A file is written only while it is open for writing, and with exit code 0 every file has been closed. The output itself is not replaced as a whole: a killed averaging can leave a database without records that passes as one of this kind.", "quantifier": "every program, command line, state of the files, result of the storage calls, moment of the kill, and every content left in the files open for writing", "why_tests_cant": "All crash points and all garbage that a crash can leave.", "anchors": ["libsrc/cencalvm/average/Averager.cc: average", "libsrc/cencalvm/create/VMCreator.cc: openDB, closeDB, packDB", "libsrc/cencalvm/create/GridIngester.cc: run", "extensions/applications/vsgrader/VsGrader.cc: run", "applications/average/cencalvmavg.cc: main", "applications/create/cencalvmgen.cc: main", "applications/create/cencalvmpack.cc: main", "extensions/applications/vsgrader/gradecencalvm.cc: main"]}
{"id": "C68", "title": "Programs that run at the same time do not influence each other when none writes a file another one uses", "statement": "Any number of runs of cencalvmavg, cencalvmpack, cencalvmgen and gradecencalvm at the same time, interleaved in any way, come to an end; when no file that one of them writes is read or written by another, each ends with the exit code, message and files that it would have alone, and all other files are as before. The final state does not depend on the schedule.", "quantifier": "every number of processes, every command line, every interleaving of their file operations, every state of the files", "why_tests_cant": "All schedules of any number of processes.", "anchors": ["libsrc/cencalvm/average/Averager.cc: average", "libsrc/cencalvm/create/VMCreator.cc: openDB, closeDB, packDB", "libsrc/cencalvm/create/GridIngester.cc: run", "extensions/applications/vsgrader/VsGrader.cc: run", "applications: main functions of cencalvmavg, cencalvmgen, cencalvmpack", "extensions/applications/vsgrader/gradecencalvm.cc: main"]}
{"id": "C69", "title": "A failing storage call never passes unnoticed in the programs that write databases", "statement": "cencalvmavg, cencalvmpack, cencalvmgen and gradecencalvm end with the same exit code, message and files as they would with storage of which no call fails, or they end with exit code 1 and a message. So exit code 0 means that every file is what it would be without failures. Exceptions: stepping to the next record and closing the averaged or the temporary file, whose failures are passed over (C64); and when the input of the gradient program cannot be closed, a failure elsewhere is undefined behaviour.", "quantifier": "every program, command line, state of the files and every pattern of failing storage calls", "why_tests_cant": "All combinations of failing calls at all positions of a run.", "anchors": ["libsrc/cencalvm/average/AvgEngine.cc", "libsrc/cencalvm/average/Averager.cc: average", "libsrc/cencalvm/create/VMCreator.cc: openDB, packDB, insert", "extensions/applications/vsgrader/VsGrader.cc: _extract, _pack, _grade, _pullData, _pushData"]}
{"id": "C70", "title": "Nothing is interpolated: the values are constant in every cell", "statement": "Two locations inside the model that share the smallest stored octant in each open database (or are both in none) get bit-identical values, including the elevation of the surface, and the same status, from every kind of query at every resolution (squashing off or below its limit). In an averaged database this holds for any two locations in the same octant of the database that was averaged. With squashing on and above its limit the same holds for the locations moved by the elevation of their own surface.", "quantifier": "every database, kind of query, resolution, selection of values and pair of locations", "why_tests_cant": "Continuum of locations, all trees; rounding in the placement of a location could make neighbours differ.", "anchors": ["docs/query.md: Database, note 1", "libsrc/cencalvm/query/VMQuery.cc: query, _queryMax, _queryFixed, _queryWave, _queryElev"]}
{"id": "C71", "title": "Killing the query application loses only the rest of its own output", "statement": "At every point of a run of cencalvmquery, whatever part of the buffered text has reached the files: no file but the log file and the output file has changed; the log file is as it was before the run or holds an initial part of the log of the complete run; the output file has not been touched or holds an initial part of the output of the complete run. Every number of complete output lines up to the final one occurs. Running the program again with the same arguments on what is left gives the same exit code, messages, output and files as if the first run had not been started.", "quantifier": "every database, command line, input file, previous content of files, point at which the run is killed, and part of the buffers that was flushed", "why_tests_cant": "All crash points times all buffer states.", "anchors": ["applications/query/cencalvmquery.cc: main", "libsrc/cencalvm/storage/ErrorHandler.cc: logFilename, log"]}
{"id": "C72", "title": "What the isosurface application leaves when it is killed or gives up", "statement": "At every point of a run of cencalvmisosurface, whatever part of the buffered text has reached the file: no file but the output file has changed, the output file has not been touched or holds an initial part of the output of the run, and running the program again gives the same result as if the first run had not been started. After a run that was not killed the output file holds all lines, unless the program gave up with an invalid search range. False: the lines of the points before that one are always in the file (the program leaves by exit(), which does not write the buffer of the output stream).", "quantifier": "every database, command line, input file, point at which the run is killed, and part of the buffer that was flushed", "why_tests_cant": "All crash points times all buffer states; a test with a short output and one with a long one see different parts of it.", "anchors": ["applications/query/cencalvmisosurface.cc: main, searchVs"]}
{"id": "C73", "title": "The output of the query application can be read back", "statement": "When cencalvmquery ends with code 0 and the numbers are not too large for their columns (elevations from -99999.9 to 999999.9 m, values likewise or, for speeds and density, from -9999.9 to 99999.9, fault blocks and zones from -999 to 9999), splitting the output file at white space gives exactly twelve words for each input location, on a line of its own and in the order of the input; the words show the longitude and latitude rounded to five decimal places, the elevation and the values rounded to one, and fault block and zone exactly. A file has only one such reading. False: this holds for every location (at 100 km below sea level the elevation and the latitude form one word).", "quantifier": "every database, command line, input file, number of locations, and every implementation of the C++ library's fixed notation", "why_tests_cant": "Whether two columns run together depends on the widths of all numbers of a line; tests compare a few lines of moderate numbers.", "anchors": ["applications/query/cencalvmquery.cc: main"]}
{"id": "C74", "title": "From grid files to printed lines", "statement": "When cencalvmgen makes a database from a list of grid files whose points lie in octants that do not cover each other, cencalvmavg averages it, and cencalvmquery (maximum resolution, no squashing) is given a file of locations inside the model, then all three programs end with code 0 (the values and locations being small enough for the columns) and splitting the output at white space gives twelve words for each location: if a grid point with data lies in an octant holding the location, they show the location, the values of that line of the grid files in SI units and the elevation of the ground computed from it; otherwise -999 for every value and 0 for fault block and zone. At the location of a grid point with data the words show that point's own values.", "quantifier": "every list of grid files, every file of locations and database contents satisfying the conditions, every implementation of storage, projection and number formatting within the contracts", "why_tests_cant": "No test runs the three programs one after the other; the claim ranges over all grids, locations and file contents and joins parsing, storage order, averaging, search, geometry and formatting.", "anchors": ["libsrc/cencalvm/create/GridIngester.cc: GridIngester::run", "applications/create/cencalvmgen.cc", "libsrc/cencalvm/average/Averager.cc: Averager::average", "applications/average/cencalvmavg.cc", "libsrc/cencalvm/query/VMQuery.cc: VMQuery::query", "applications/query/cencalvmquery.cc: main"]}
{"id": "C75", "title": "The depths written by the isosurface application can be trusted", "statement": "For an input file with any number of points where wave speeds do not decrease with depth, are below the target at the surface and reach it at the lowest elevation searched, cencalvmisosurface (without squashing) ends with code 0 and splitting its output at white space gives three words for each point, in order: longitude and latitude to five decimal places, and a depth D in metres to one. At every depth of at least D + 0.1 m the speed is at least the target, and at every depth below D minus the resolution of the search (12.5 m, more if logarithms are inexact) minus 0.1 m it is less.", "quantifier": "every database, every such profile of speeds at each point, every number of points, target, lowest elevation, every logarithm with relative error at most 1/256, every implementation of fixed notation", "why_tests_cant": "The number of bisections comes from a logarithm rounded up, and the number written has been rounded several times; a test sees one profile and compares with a stored result.", "anchors": ["applications/query/cencalvmisosurface.cc: main, searchVs"]}
{"id": "C76", "title": "cencalvmavg refuses overlapping octants, and so its own output", "statement": "If two octants of the input database overlap (one below the root contains another), cencalvmavg prints a message, exits with code 1 and changes no file but its output. So grid files of different resolutions with points in the same place are made into a database by cencalvmgen without complaint but refused by cencalvmavg. Running cencalvmavg on a database that it has averaged is refused in the same way, and that database stays as it is, if it held an octant two levels or more below the root; if all octants were just below the root the second run exits with code 0 and gives the same records.", "quantifier": "every database file, grid files, command lines and storage that accepts appends in order and refuses duplicates", "why_tests_cant": "The order in which octants meet during averaging depends on the whole tree; tests have a few small trees, none with overlaps, and none runs the program twice.", "anchors": ["applications/average/cencalvmavg.cc: main", "libsrc/cencalvm/average/Averager.cc: Averager::average", "libsrc/cencalvm/average/AvgEngine.cc: AvgEngine::fillOctants", "applications/create/cencalvmgen.cc: main"]}
{"id": "C77", "title": "Projecting a location depends on that location alone until one projection fails", "statement": "A location that the projection library can transform gives its own coordinates, whatever was projected before, as long as no earlier transformation failed or the library clears its error number on success; a location that it cannot transform gives an exception with the library's text and the coordinates asked for. If the library keeps the error number of a failed transformation, then after one failure every later call of the object is an exception that blames the location asked for, for all locations and both directions, and so is every call of any other object if they share the error number; a query of any location then reads uninitialised memory. The projection is created as transverse Mercator with longitude -123, latitude 35, scale 0.9996, NAD83 and metres.", "quantifier": "every projection library (transformations, texts, whether it keeps or shares error numbers), every history of calls on any number of objects, every location", "why_tests_cant": "The tests project good locations only and never go on after a failure; what a failure leaves behind shows in later calls of other locations and other objects.", "anchors": ["libsrc/cencalvm/storage/Projector.cc: Projector::Projector, Projector::project, Projector::invProject", "libsrc/cencalvm/storage/GeomCenCA.cc: GeomCenCA::lonLatElevToAddr", "libsrc/cencalvm/query/VMQuery.cc: VMQuery::query"]}
{"id": "C78", "title": "Averaged values lie in the range of the input inside the octant", "statement": "In a database made by averaging, an octant of any size is rock (positive Vs) exactly if some input octant inside it is rock; if it holds no rock it is water (positive Vp) exactly if some input octant inside it is water; if it holds neither, all six averaged values are -999. If it holds rock, each of its values is finite and lies between the smallest and largest value of the rock inside, and if it holds only water between those of the water inside, up to 2^-15 of the largest magnitude plus 2^-144, however many levels lie in between. A query at a fixed resolution gives such values for an octant around the location not finer than asked for, or no data. A query for a shortest period gives such values, with twice that slack, for one octant around the location, or no data where no input octant holds the location.", "quantifier": "every well-formed input database whose rock and water values are finite and at most 2^120 in magnitude, every stored octant, property and bounds; every query at fixed resolution or for a shortest period", "why_tests_cant": "Rounding errors accumulate over up to 31 levels of averaging and depend on the whole tree; tests average small trees with a few round numbers and compare with tolerances.", "anchors": ["libsrc/cencalvm/average/AvgEngine.cc: AvgEngine::fillOctants", "libsrc/cencalvm/average/AvgEngine.cc: AvgEngine::_addToParent, AvgEngine::_processOctant", "libsrc/cencalvm/query/VMQuery.cc: VMQuery::_queryFixed", "libsrc/cencalvm/query/VMQuery.cc: VMQuery::_queryWave"]}
{"id": "C79", "title": "A coarser request is never answered from a finer octant", "statement": "Two fixed resolution queries at the same location of the same database: the larger resolution gets the same or a coarser octant level, the octant behind its answer contains the octant behind the answer for the smaller resolution, and in a database where every octant has a parent (as after averaging) it finds data wherever the smaller resolution does. The same holds for two shortest periods. Where the smallest stored octant around a location is not an average, a query at maximum resolution, at a fixed resolution that is fine enough and for a period that the octant resolves all give its values. The exception: where the smallest octant is an average with a negative Vs (water), a query for a period returns that average however short the period is, while the other queries report no data.", "quantifier": "every database with octants stored once, every pair of resolutions or periods between 2^-60 and 2^60, every location inside the model, every list of material values", "why_tests_cant": "Tests compare a few queries with expected numbers; an ordering between all pairs of requests needs the monotonicity of the rounded logarithm, of the level and of the search loop.", "anchors": ["libsrc/cencalvm/query/VMQuery.cc: VMQuery::_queryMax, VMQuery::_queryFixed, VMQuery::_queryWave", "libsrc/cencalvm/storage/GeomCenCA.icc: GeomCenCA::level"]}
{"id": "C80", "title": "Changing a model in one place does not change it elsewhere", "statement": "Two databases are averaged and the results queried at the same location for the same values. If the two inputs have the same records inside an octant, the two results have the same records inside that octant (input and averages). Then the answers are equal: at maximum resolution if the inputs agree at the location; at a fixed resolution if they agree inside and around the octant of that resolution that holds the location; for a shortest period if they agree inside some stored octant around the location that is not too fine for the period. So a grid that is corrected or added in one region changes no answer elsewhere beyond the averages of the octants that contain the region. With extended databases the same holds if both pairs of inputs agree; a change of the extended model is not noticed where the detailed model has data.", "quantifier": "every pair of well-formed inputs of any size, every octant, every location inside the model, every list of material values, every two query objects with the same settings", "why_tests_cant": "A test compares one pair of models; that nothing leaks from one octant to another through the caches and running sums of the averager or the search of the query needs all pairs and all octants.", "anchors": ["libsrc/cencalvm/average/AvgEngine.cc: AvgEngine::fillOctants", "libsrc/cencalvm/query/VMQuery.cc: VMQuery::query, VMQuery::_queryMax, VMQuery::_queryFixed, VMQuery::_queryWave"]}
{"id": "C81", "title": "The order in which grid files and points are given does not matter", "statement": "Two lists of grid files whose points with data are the same (with the same resolutions), however they are spread over files and in whatever order within a file and in the list, points without data aside: cencalvmgen and cencalvmavg exit with code 0 for both, the two generated databases have the same records in the same order, and so have the two averaged databases. File names, number formats of the files and previous contents of the disk do not matter.", "quantifier": "every two sets of grid files with any number of files and points whose octants do not overlap, every permutation of the points, storage that works", "why_tests_cant": "A test ingests one fixed list of files; independence of order ranges over all permutations and all ways of splitting the points into files.", "anchors": ["libsrc/cencalvm/create/GridIngester.cc: GridIngester::run, GridIngester::_addGrid", "libsrc/cencalvm/create/VMCreator.cc: VMCreator::insert", "libsrc/cencalvm/average/AvgEngine.cc: AvgEngine::fillOctants"]}
{"id": "C82", "title": "A model with limited gradients can be averaged and queried", "statement": "The gradient program is run on a grid of points and its output is averaged by cencalvmavg. Both programs exit with code 0. The averaged database has the standard layout. It is the average of exactly one record per grid point, with the shear speeds lowered to the largest ones below the input that respect the limits, up to rounding. A query at maximum resolution anywhere in the octant of a grid point, and so at the place of the point itself, returns the limited values of that point; outside these octants there is no data. No files change except the temporary file, the graded database and the averaged database.", "quantifier": "every grid of any size whose points lie in different octants, every input database, every parameter file that reads well, every query location and list of material values, storage that works", "why_tests_cant": "A test runs the two programs on one small grid; that the output of the first is always a valid input of the second (disjoint octants of one size, in order, no invalid numbers after scaling) and that answers are those of the right grid point ranges over all grids and inputs.", "anchors": ["extensions/applications/vsgrader/VsGrader.cc: VsGrader::run, VsGrader::_extract, VsGrader::_grade, VsGrader::_limitDiff", "extensions/applications/vsgrader/gradecencalvm.cc: main", "libsrc/cencalvm/average/Averager.cc: Averager::average", "libsrc/cencalvm/query/VMQuery.cc: VMQuery::query"]}
{"id": "C83", "title": "Limiting gradients leaves alone what already respects the limits", "statement": "If the shear speeds of a model on the grid differ between neighbours by at most the limits set for the vertical and the horizontal directions, and these limits (or smaller ones that are respected) are single precision numbers, then grading updates no octant at all. For every other limit no shear speed changes, and Vp, density, Qp and Qs change at most by rounding (2^-19); that they can drift by rounding each time is C41. Grading a model that was graded before with the same settings raises no speed and lowers none by more than three times the tolerance of C42. The same for the whole program: gradecencalvm run at maximum resolution on the file it made before, with the same parameters and a smallest speed between 0 and 10^10, succeeds, writes the same octants, and changes no shear speed by more than three times that tolerance.", "quantifier": "every grid size, settings, contents of the database, storage library that meets its contract", "why_tests_cant": "A test grades one model; that the comparison in single precision never fires on a model within the limit, in any of the three directions, needs the monotonicity of rounding for all speeds and limits.", "anchors": ["extensions/applications/vsgrader/VsGrader.cc:_limitDiff", "extensions/applications/vsgrader/VsGrader.cc:_grade", "extensions/applications/vsgrader/VsGrader.cc:_pushData"]}
{"id": "C84", "title": "A database is its records: packing it cannot be noticed", "statement": "If the files that can be opened under the same names hold the same records, in whatever order they are stored and however the storage library searches them, then every sequence of calls on a query object (opening, closing, all settings, queries of every kind with or without squashing and an extended database, calls of the error handler), for any locations including invalid ones, ends in the same values, status, messages and log files, or goes wrong in the same way. The programs cencalvmquery and cencalvmisosurface, with any arguments and input, write the same lines, messages and log files and exit with the same code. Every program that uses the C interface, with any number of query objects and any handles (null, of the wrong kind, destroyed), gets the same results from all its calls, leaves the same log files and the same lines on standard error, or goes wrong in the same way. So does every program that configures, opens, queries and closes the spatial database object and catches its exceptions. In particular the packed form of a database can be put in its place. Packing before averaging, after it or not at all gives the same records.", "quantifier": "every pair of storage environments with the same records, every sequence of calls, location and initial state of the files; every database that was packed without an exception", "why_tests_cant": "A test compares a few values from one packed and one unpacked file; that no sequence of calls tells them apart ranges over all histories, settings, locations and contents.", "anchors": ["libsrc/cencalvm/query/VMQuery.cc: VMQuery::query, VMQuery::_queryMax, VMQuery::_queryFixed, VMQuery::_queryWave, VMQuery::_queryElev", "libsrc/cencalvm/create/VMCreator.cc: VMCreator::packDB", "libsrc/cencalvm/average/Averager.cc: Averager::average", "applications/query/cencalvmquery.cc: main", "applications/query/cencalvmisosurface.cc: main", "libsrc/cencalvm/query/cvmquery.cc", "libsrc/cencalvm/query/cvmerror.cc", "extensions/libsrc/cencalvmdb/CenCalVMDB.cc"]}
{"id": "C85", "title": "Limiting gradients is stable, monotonic and local", "statement": "Two models of the same grid are limited with the same settings. If, at all points from which the limits allow a difference of less than the largest speed M to a given point, the first model is nowhere faster than the second one by more than e, then at the given point the first limited model is not faster than the second limited model by more than e, up to twice the tolerance of C42. So changing the model by at most e anywhere changes the result by at most e, a slower model never gives a faster result, and a change does not matter at all beyond its reach (rounding aside). The same for gradecencalvm run by the same command on two versions of its input file, in terms of the answers of queries; the raising of slow speeds to the smallest one included.", "quantifier": "every grid size, settings, pair of models, point and e; every storage library that meets its contract", "why_tests_cant": "A test compares the output for one model with stored numbers; how far and how much a change of the input is felt is a statement about pairs of models of any size.", "anchors": ["extensions/applications/vsgrader/VsGrader.cc:_limitDiff", "extensions/applications/vsgrader/VsGrader.cc:_grade", "extensions/applications/vsgrader/VsGrader.cc:_extract", "extensions/applications/vsgrader/gradecencalvm.cc: main"]}
{"id": "C86", "title": "Raising the values of a model never lowers its averages, and small changes stay small", "statement": "Two models with the same octants, each octant of the same kind (rock, water, no data) in both, are averaged. The averaged databases have the same octants, of the same kind. If a property is nowhere higher in the first model, it is nowhere higher in the averages of the first, at any level; this holds exactly, rounding included. If it differs by at most e, the averages differ by at most e plus a fraction 2^-14 of the largest magnitude (and 2^-143). Queries at maximum resolution or at the same fixed resolution compare in the same way at every location. The condition on the kinds is needed: raising the shear speed of water from 0 to 10 m/s makes it rock, and the averages around it fall (refuted).", "quantifier": "every pair of well-formed databases with the same octants (values up to 2^120), every property, e, level, location; every storage library that meets its contract", "why_tests_cant": "It relates two runs on any two models; monotonicity in single precision has to hold for every sum and quotient along every path of the tree.", "anchors": ["libsrc/cencalvm/average/AvgEngine.cc:_averageOctant", "libsrc/cencalvm/average/AvgEngine.cc:_addToParent", "libsrc/cencalvm/average/Averager.cc:average", "libsrc/cencalvm/query/VMQuery.cc:query"]}
{"id": "C87", "title": "Unrelated calls can be made in any order", "statement": "Calls on a query object that do not change or depend on a common part of it (name, cache sizes, resolution, kind of query, requested values, squashing, projection, open databases, status and log) can be exchanged anywhere in a program: every query in it returns the same values, status and message, and the program ends with the same status, message and log files, or goes wrong in the same way. So settings that are accepted can be made in any order, the way to answer can be settled before or after opening, and names and cache sizes can be changed before or after a query. Two settings that are both refused are related, because the last complaint is the one reported, and the name has to be given before opening.", "quantifier": "every program of calls and every rearrangement of it that only exchanges unrelated calls, every storage environment, location and initial state of the files", "why_tests_cant": "A test makes its calls in one order; that no order is noticed ranges over all permutations of all programs, contents and locations.", "anchors": ["libsrc/cencalvm/query/VMQuery.cc: VMQuery::open, VMQuery::close, VMQuery::queryType, VMQuery::queryVals, VMQuery::query", "libsrc/cencalvm/query/VMQuery.icc: VMQuery::filename, VMQuery::cacheSize, VMQuery::queryRes, VMQuery::squash"]}
{"id": "C88", "title": "Isosurfaces of higher speeds are deeper", "statement": "When the isosurface program is run at a point of one model for two shear-wave speeds, neither above the speed at the lowest elevation, the depth written for the higher speed is never smaller than the depth written for the lower one, as a number and in the tenths of a metre printed. Likewise, when one of two models is nowhere slower than the other at a point between the surface and the lowest elevation, the depth written for one speed in the faster model is never larger. So the surfaces written for a file of points do not cross at any of them. The numbers written with squashing are nested in the same way. Neither model has to get faster with depth, and a speed may be reached at the surface already. False without the condition at the lowest elevation: where the model ends above it, a speed that is reached nowhere gets -999.", "quantifier": "every file of points, pair of targets and pair of models, including profiles with low-speed layers, every lowest elevation and all rounding in the search", "why_tests_cant": "A test compares the depths of a few profiles; that isosurfaces never cross ranges over all profiles, including those that cross a target several times, and over all rounded midpoints.", "anchors": ["applications/query/cencalvmisosurface.cc: searchVs, main"]}
{"id": "C89", "title": "Query runs can be split, joined and shuffled", "statement": "Suppose the same model and settings are used, every run gets to its locations and every write succeeds. If runs of the query application over two parts of a list of locations exit with code 0, a run over the whole list does too: its output is that of the first part followed by that of the second, and so are its messages and its log. If the run over the whole list exits with code 0, so do the runs over the parts, and their outputs make up the whole output. A run over the same locations in another order writes the same line for each of them.", "quantifier": "every list of locations, every way to cut or reorder it, every database, setting and layout of the files", "why_tests_cant": "A test splits one file in one place; that a batch can be distributed over jobs ranges over all files, cuts and orders.", "anchors": ["applications/query/cencalvmquery.cc: main", "libsrc/cencalvm/query/VMQuery.cc: VMQuery::query"]}
{"id": "C90", "title": "Isosurface runs can be split, joined and shuffled", "statement": "Suppose the same target speed, model, squashing and lowest elevation are used, the databases open and every write succeeds. If runs of the isosurface application over two parts of a list of points exit with code 0, a run over the whole list does too: its output is that of the first part followed by that of the second, and so are its messages. If the run over the whole list exits with code 0, so do the runs over the parts, and their outputs make up the whole output. A run over the same points in another order writes the same line for each of them.", "quantifier": "every list of points, every way to cut or reorder it, every database, target speed, setting and layout of the files", "why_tests_cant": "A test splits one file in one place; that a map can be computed in pieces ranges over all files, cuts and orders, and over what a search leaves in the query object for the next one.", "anchors": ["applications/query/cencalvmisosurface.cc: main, searchVs, queryElev", "libsrc/cencalvm/query/VMQuery.cc: VMQuery::query"]}
