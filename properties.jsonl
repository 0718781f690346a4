{"id": "C01", "title": "Kinematic outputs are mutually consistent", "statement": "Calling a Converter that was built from one physical kinematic quantity and a positive mass returns beta, gamma, momentum, energy, kinetic energy, beta*gamma, velocity and Brho that satisfy every relativistic identity: gamma^2(1-beta^2)=1, E^2=p^2+m^2, KE=E-m, p=(beta gamma)m, v=beta c, Brho=p/c, with |beta|<1 and gamma>=1.", "quantifier": "every one of the eight kinds of input, every physical value of it, every positive mass", "why_tests_cant": "there are infinitely many input values and eight input kinds; a test checks a handful of decimals to a few digits", "anchors": ["rsbeams/rsstats/kinematic.py:Converter.__call__", "rsbeams/rsstats/kinematic.py:Converter.start_momentum", "rsbeams/rsstats/kinematic.py:Converter.calculate_energy"]}
{"id": "C02", "title": "The quantity given is the quantity reported", "statement": "The output entry with the same name as the input quantity equals the input value, and feeding any reported quantity (of a forward-moving particle) back into a new Converter of the same mass reproduces every other reported quantity.", "quantifier": "all 8x8 pairs of input kind and re-input kind, all physical values, all positive masses", "why_tests_cant": "the 64 pairs each range over a continuum", "anchors": ["rsbeams/rsstats/kinematic.py:Converter.startup", "rsbeams/rsstats/kinematic.py:Converter.outputs"]}
{"id": "C03", "title": "A Converter accepts exactly one kinematic quantity", "statement": "Construction fails with an assertion exactly when the number of kinematic quantities supplied is different from one or a unit name is not eV or SI; otherwise it succeeds.", "quantifier": "all 2^8 presence patterns of the arguments, with any values, and all unit strings", "why_tests_cant": "presence patterns combine with arbitrary values and strings", "anchors": ["rsbeams/rsstats/kinematic.py:Converter.__init__"]}
{"id": "C04", "title": "Units only rescale the answer", "statement": "Giving the quantity in SI units yields the same beta and gamma as giving the converted eV value, and asking for SI output multiplies momentum, energy and kinetic energy of the eV answer by e/c, e, e and nothing else of the kinematics.", "quantifier": "all inputs, masses and the eight combinations of mass, input and output unit", "why_tests_cant": "unit combinations multiply with continuous values", "anchors": ["rsbeams/rsstats/kinematic.py:Converter._unit_convert"]}
{"id": "C05", "title": "The reported mass carries the reported mass unit", "statement": "The mass entry of the result, read in the unit named by the mass_unit entry, is the mass the user supplied.", "quantifier": "all masses and all eight unit combinations", "why_tests_cant": "eight unit combinations times all masses; the wrong ones look plausible", "anchors": ["rsbeams/rsstats/kinematic.py:Converter.__init__", "rsbeams/rsstats/kinematic.py:Converter._unit_convert"]}
{"id": "C06", "title": "Calling a Converter again does not change the answer", "statement": "Calling the same Converter object any number of times returns the same values as the first call.", "quantifier": "every Converter and every number of calls", "why_tests_cant": "it is a statement about histories of calls of any length", "anchors": ["rsbeams/rsstats/kinematic.py:Converter.__call__"]}
{"id": "C07", "title": "calc_variance6d returns the population variance", "statement": "For every array of n>=1 particles the returned six numbers are (1/n) sum (x-mean)^2 of the six coordinates of the array passed in.", "quantifier": "all particle counts and all coordinate values", "why_tests_cant": "a one-pass recurrence over arbitrarily many particles has to be right by induction", "anchors": ["rsbeams/rsstats/stats6d.py:calc_variance6d"]}
{"id": "C08", "title": "The statistics functions do not modify the beam", "statement": "Computing the variance, rms or correlations of a beam leaves the array unchanged, so that asking twice gives the same answer.", "quantifier": "all arrays and all sequences of statistics calls", "why_tests_cant": "it is about every history of calls; one overwritten particle out of thousands is invisible at test precision", "anchors": ["rsbeams/rsstats/stats6d.py:calc_variance6d", "rsbeams/rsstats/stats6d.py:calc_rms6d", "rsbeams/rsstats/stats6d.py:calc_correlations6d"]}
{"id": "C09", "title": "sub_avg6d centres the beam", "statement": "After sub_avg6d every coordinate mean is zero and all differences between particles are unchanged.", "quantifier": "all arrays with at least one particle", "why_tests_cant": "unbounded particle count and real values", "anchors": ["rsbeams/rsstats/stats6d.py:sub_avg6d", "rsbeams/rsstats/stats6d.py:calc_avg6d"]}
{"id": "C10", "title": "normalize_rms6d gives unit rms", "statement": "After normalize_rms6d on a centred beam with nonzero spread, each coordinate has rms exactly one.", "quantifier": "all centred arrays", "why_tests_cant": "the deviation is of order 1/n and hides below test tolerances", "anchors": ["rsbeams/rsstats/stats6d.py:normalize_rms6d"]}
{"id": "C11", "title": "calc_correlations6d is the covariance matrix", "statement": "Entry (i,j) of the returned matrix is (1/n) sum (x_i-mean_i)(x_j-mean_j); the matrix is symmetric.", "quantifier": "all arrays and all 36 index pairs", "why_tests_cant": "the deviation is of order 1/n and hides below test tolerances", "anchors": ["rsbeams/rsstats/stats6d.py:calc_correlations6d"]}
{"id": "C12", "title": "jacobi_eigen_solver6d returns a true eigen-decomposition", "statement": "Whenever the solver returns, the returned vectors are orthonormal, each is an eigenvector of the sigma matrix passed in with the returned eigenvalue, and the eigenvalues sum to the trace.", "quantifier": "all symmetric positive semidefinite 6x6 matrices (all beam sigma matrices), whatever the number of sweeps and rotations performed", "why_tests_cant": "the rotation count and threshold decisions depend on the data; only an invariant over all rotations covers them", "anchors": ["rsbeams/rsstats/stats6d.py:jacobi_eigen_solver6d"]}
{"id": "C13", "title": "rm_correlations6d decorrelates the beam", "statement": "After rm_correlations6d the new coordinates are an orthogonal change of basis of the beam and different coordinates have zero covariance.", "quantifier": "all arrays for which the solver converges", "why_tests_cant": "depends on the eigen-solver for every matrix and on interaction with in-place updates", "anchors": ["rsbeams/rsstats/stats6d.py:rm_correlations6d"]}
{"id": "C14", "title": "specify_significant_figures rounds correctly", "statement": "For n>=1 the result differs from the value by at most half a unit of the n-th significant digit, and it is 0 for 0.", "quantifier": "all reals and all digit counts", "why_tests_cant": "decades and digit counts are unbounded", "anchors": ["rsbeams/rsstats/stats6d.py:specify_significant_figures"]}
{"id": "C15", "title": "Twiss parameters are consistent", "statement": "A Twiss object built from any alpha, any beta and any emittance reports those values and a gamma with beta*gamma-alpha^2=1, and keeps doing so when an attribute is assigned; a non-positive beta or emittance is refused.", "quantifier": "all real alpha, beta and emittance, and all assignments", "why_tests_cant": "continuous inputs, including the boundary beta=0", "anchors": ["rsbeams/rsptcls/RsTwiss2D.py:RsTwiss2D"]}
{"id": "C16", "title": "make_twiss_dist_6d matches the requested Twiss parameters", "statement": "A centred, decorrelated, unit-rms beam is turned into one whose plane second moments are emit*beta, -emit*alpha and emit*gamma for the requested values.", "quantifier": "all alpha, beta>0, emittance>0 and all normalised beams", "why_tests_cant": "the formula branches on sign and equality of real quantities; the exceptional branch has measure zero", "anchors": ["rsbeams/rsptcls/RsDistrib6D.py:RsDistrib6D.make_twiss_dist_6d"]}
{"id": "C17", "title": "calc_twiss6d inverts the beam matching", "statement": "For plane second moments with positive determinant, calc_twiss6d stores alpha, beta, gamma and emittance satisfying beta*gamma-alpha^2=1 and emit*(beta,-alpha,gamma)=moments; otherwise it raises.", "quantifier": "all moment matrices", "why_tests_cant": "continuous inputs, including the boundary of positivity", "anchors": ["rsbeams/rsptcls/RsDistrib6D.py:RsDistrib6D.calc_twiss6d"]}
{"id": "C18", "title": "The CDF is a CDF", "statement": "For non-negative weights with positive sum, cdf_on_grid returns as many values as weights, non-decreasing, between 0 and 1, ending at 1, with increments proportional to the weights.", "quantifier": "all weight lists", "why_tests_cant": "unbounded lists of reals", "anchors": ["rsbeams/rsstats/sample.py:cdf_on_grid", "rsbeams/rsstats/sample.py:_calculate_cdf"]}
{"id": "C19", "title": "Numeric sampling inverts the CDF inside [a,b]", "statement": "sample(..., invert=\"numeric\") returns n grid points of [a,b], each being the first grid point whose CDF reaches the uniform variate; unsupported method or invert names raise NotImplementedError.", "quantifier": "all uniform variates in [0,1), all grids and weights", "why_tests_cant": "the search must be right for every variate and grid", "anchors": ["rsbeams/rsstats/sample.py:sample"]}
{"id": "C20", "title": "Bunch Twiss values stay consistent under setters", "statement": "After constructing a bunch with positive betas and applying any sequence of beta/alpha setters with positive betas, gamma_u*beta_u = 1+alpha_u^2 in both planes, and reading beta or alpha gives the value last set.", "quantifier": "all values and all histories of setter calls, for StandardBunch and NonlinearBunch", "why_tests_cant": "histories of any length", "anchors": ["rsbeams/rsptcls/bunch.py:StandardBunch.betax", "rsbeams/rsptcls/bunch.py:NonlinearBunch.betax"]}
{"id": "C21", "title": "Rejected bunch settings leave the bunch unchanged", "statement": "A setter call that raises leaves every readable attribute of the bunch as it was.", "quantifier": "all states and all argument values", "why_tests_cant": "it quantifies over crash points of every setter", "anchors": ["rsbeams/rsptcls/bunch.py:StandardBunch.betax", "rsbeams/rsptcls/bunch.py:StandardBunch.cutoff"]}
{"id": "C22", "title": "Quiet start has exactly zero centroid", "statement": "With quiet start the distributed bunch has exactly zero mean in x, px, y, py whatever random numbers are drawn, for every particle number the bunch accepts; particle identifiers stay 0..N-1.", "quantifier": "all random streams and particle numbers", "why_tests_cant": "random streams are arbitrary and the loop length is unbounded", "anchors": ["rsbeams/rsptcls/bunch.py:StandardBunch.exact_centroids", "rsbeams/rsptcls/bunch.py:StandardBunch.distribute_KV"]}
{"id": "C23", "title": "KV particles lie on one invariant surface", "statement": "Every particle produced by distribute_KV satisfies the sum of the two Courant-Snyder invariants equal to twice the total emittance, for all Twiss parameters.", "quantifier": "all random draws, emittances and Twiss parameters", "why_tests_cant": "random rejection loops; continuous parameters", "anchors": ["rsbeams/rsptcls/bunch.py:StandardBunch.distribute_KV"]}
{"id": "C24", "title": "distribute_Gaussian leaves the configured emittance alone", "statement": "After distribute_Gaussian returns or raises, the total emittance attribute is what it was before the call.", "quantifier": "all random streams and all crash points inside the loop", "why_tests_cant": "crash points", "anchors": ["rsbeams/rsptcls/bunch.py:StandardBunch.distribute_Gaussian"]}
{"id": "C25", "title": "The nonlinear potential is defined off the singularities", "statement": "compute_potential has real arguments for its square root, arccosh and arccos at every point, a vanishing denominator only at the two singular points, and is even in x and in y.", "quantifier": "all points of the plane, all c>0 and t", "why_tests_cant": "the plane is a continuum and the bad points are isolated", "anchors": ["rsbeams/rsptcls/bunch.py:NonlinearBunch.compute_potential"]}
{"id": "C26", "title": "Nonlinear insert optics are consistent", "statement": "For every length>0, phase advance not multiple of 1/2 and number of slices n>=1, the insert has n slice centres equally spaced and symmetric about the centre, positive beta symmetric about the centre, focal length L/(4 sin^2(pi phase)), and slice strengths t*c^2*L/(n beta).", "quantifier": "all lengths, phases, t, c and slice counts", "why_tests_cant": "continuous parameters and unbounded slice counts", "anchors": ["rsbeams/rslattice/nonlinear.py:NonlinearInsert.generate_sequence"]}
{"id": "C27", "title": "Setters of the nonlinear insert accept valid values", "statement": "Assigning a valid value to length, phase, t, c or num_slices makes the attribute read back that value; an invalid value is refused and nothing changes.", "quantifier": "all values and histories of assignments", "why_tests_cant": "histories", "anchors": ["rsbeams/rslattice/nonlinear.py:NonlinearInsert"]}
{"id": "C28", "title": "Closed-form centroid equals the defining integral", "statement": "The first- and second-order closed forms of the centroid equal the phase integral that the numerical any-order routine integrates, for every turn number.", "quantifier": "all turns, tunes, nonzero tune slopes and amplitudes", "why_tests_cant": "equality of an integral and a closed form on a continuum", "anchors": ["rsbeams/rsphysics/decoherence.py:integrate_first_order", "rsbeams/rsphysics/decoherence.py:integrate_second_order", "rsbeams/rsphysics/decoherence.py:integrate_any_order"]}
{"id": "C29", "title": "The centroid never exceeds its initial amplitude", "statement": "The centroid at turn 0 is the initial amplitude and at every turn its absolute value is at most that of the initial amplitude; calculate_centroids returns one value per turn, in turn order.", "quantifier": "all turns and parameters", "why_tests_cant": "continuum of parameters, unbounded turns", "anchors": ["rsbeams/rsphysics/decoherence.py:integrate_first_order", "rsbeams/rsphysics/decoherence.py:calculate_centroids"]}
{"id": "C30", "title": "Phase advance recovers the rotation angle", "statement": "For two points with p2 obtained from p1 != 0 by a clockwise rotation by theta in [0,2pi) and positive rescaling, phase_advance returns theta; the result is always in [0,2pi) (clockwise) and in (0,2pi] otherwise.", "quantifier": "all points and angles", "why_tests_cant": "branch cuts of arctan2 on a continuum", "anchors": ["rsbeams/rsptcls/phases.py:phase_advance"]}
{"id": "C31", "title": "The reported tune is a fractional tune in [0,1/2]", "statement": "calc/tune via FFT returns a value between 0 and 0.5 for every signal.", "quantifier": "all signals of all lengths", "why_tests_cant": "unbounded signals", "anchors": ["rsbeams/rsptcls/phases.py:tune_fft"]}
{"id": "C32", "title": "Current histogram conserves charge", "statement": "The sum of current times bin width returned by get_current_from_t is the total charge.", "quantifier": "all particle times and bin counts", "why_tests_cant": "unbounded data", "anchors": ["rsbeams/rsplot/util.py:get_current_from_t"]}
{"id": "C33", "title": "Symbol formatting is total on documented codes", "statement": "format_symbol returns one LaTeX math string for every SDDS symbol made of ordinary characters and documented mode codes, ordinary characters being kept in order.", "quantifier": "all strings", "why_tests_cant": "strings are unbounded", "anchors": ["rsbeams/rsplot/util.py:format_symbol"]}
{"id": "C34", "title": "Element parameters are case-insensitive", "statement": "After any sequence of assignments, reading a parameter under any capitalisation returns the last value assigned under any capitalisation of the same name, and KeyError if none was.", "quantifier": "all histories of assignments and reads", "why_tests_cant": "histories and strings are unbounded", "anchors": ["rsbeams/rslattice/Element.py:AgnosticDict"]}
{"id": "C35", "title": "Flattening preserves order and terminates", "statement": "For every beamline that can be built with the API, get_beamline_elements terminates and lists the elements depth first in insertion order.", "quantifier": "all histories of API calls", "why_tests_cant": "unbounded nesting and sharing", "anchors": ["rsbeams/rslattice/Beamline.py:StructuredBeamline.get_beamline_elements"]}
{"id": "C36", "title": "Length and edge are additive", "statement": "The length of a beamline is the sum of the lengths of its flattened elements; the edge of an element is the sum of the lengths before its first occurrence in the top-level beamline, hence between 0 and the total length when no length is negative.", "quantifier": "all beamlines", "why_tests_cant": "unbounded structures", "anchors": ["rsbeams/rslattice/Beamline.py:StructuredBeamline.length", "rsbeams/rslattice/Element.py:Element.edge"]}
{"id": "C37", "title": "Adding an existing name reuses the element", "statement": "Adding an element whose name was already added to that beamline inserts the very same element (its type and parameters are those first given), and every other element and beamline is unchanged.", "quantifier": "all API histories", "why_tests_cant": "aliasing through histories", "anchors": ["rsbeams/rslattice/Beamline.py:StructuredBeamline.add_element"]}
{"id": "C38", "title": "edit_element changes exactly what was asked", "statement": "edit_element(name, parameters, values) sets those parameters on the elements of that name in the beamline and changes no other element and no other parameter; an integer address edits just that position.", "quantifier": "all beamlines, names, indexes, parameter lists", "why_tests_cant": "aliasing and negative indexes", "anchors": ["rsbeams/rslattice/Beamline.py:StructuredBeamline.edit_element"]}
{"id": "C39", "title": "Saving and loading a beamline is the identity", "statement": "Loading a saved beamline into an empty beamline of the same name reproduces the same nested sequence of elements with the same names, types and parameters.", "quantifier": "all beamlines, any nesting", "why_tests_cant": "unbounded nesting", "anchors": ["rsbeams/rslattice/Beamline.py:StructuredBeamline.save_beamline", "rsbeams/rslattice/Beamline.py:StructuredBeamline.load_beamline"]}
{"id": "C40", "title": "The transfer matrix is the ordered product", "statement": "generate_matrix returns the product of the element matrices with the first element rightmost, it is symplectic, and it depends on the parameters of every element.", "quantifier": "all beamlines of drifts and quadrupoles", "why_tests_cant": "unbounded products", "anchors": ["rsbeams/rslattice/Beamline.py:StructuredBeamline.generate_matrix"]}
{"id": "C41", "title": "RPN evaluation is correct", "statement": "Evaluating the reverse-Polish text of any arithmetic expression gives the value of the expression, independent of what precedes it on the line; a text that runs out of operands fails.", "quantifier": "all expression trees", "why_tests_cant": "unbounded expressions", "anchors": ["rsbeams/rslattice/lte_parser.py:parse_rpn"]}
{"id": "C42", "title": "Importing an elegant line gives its expansion", "statement": "For every set of line definitions written with element names, line names and n*(...) repetition, the imported beamline flattened is the textual expansion of the selected line.", "quantifier": "all finite acyclic line definitions", "why_tests_cant": "unbounded nesting and repetition", "anchors": ["rsbeams/rslattice/lte_parser.py:BeamlineParser.parse_set_beamline", "rsbeams/rslattice/lte_parser.py:BeamlineParser._expand_line"]}
{"id": "C43", "title": "Comments, blank lines and continuations do not matter", "statement": "Inserting comment lines or blank lines anywhere in a lattice file, or splitting a line with a trailing &, leaves the imported lattice unchanged.", "quantifier": "all files and all insertion points", "why_tests_cant": "unbounded files and positions", "anchors": ["rsbeams/rslattice/lte_parser.py:BeamlineParser._sanitize_lattice_definition"]}
{"id": "C44", "title": "Element definitions are read faithfully", "statement": "An element definition name: type, p1=v1, p2=v2, ... gives an element of that type with exactly those parameters and values.", "quantifier": "all definitions", "why_tests_cant": "unbounded parameter lists and strings", "anchors": ["rsbeams/rslattice/lte_parser.py:BeamlineParser._find_parameters"]}
{"id": "C45", "title": "Importing a Sirepo lattice gives its expansion", "statement": "parse_json returns a beamline whose flattened elements are the expansion of the named beamline, where a negative id means the reversed line.", "quantifier": "all models", "why_tests_cant": "unbounded nesting", "anchors": ["rsbeams/rslattice/templates/lattice_importer.py:parse_json"]}
{"id": "C46", "title": "Warp output defines every element exactly once before use", "statement": "The text written for a beamline defines each distinct element name exactly once, before the line that uses it, and the line lists all elements in beamline order.", "quantifier": "all beamlines and all sequences of writes with the same writer", "why_tests_cant": "histories of writes", "anchors": ["rsbeams/rslattice/formatted_writer.py:WarpWriter.write_file"]}
{"id": "C47", "title": "Gradient conversion uses the beam rigidity", "statement": "The elegant to Warp conversion multiplies a normalised quadrupole strength by the magnetic rigidity of the reference momentum.", "quantifier": "all momenta and strengths", "why_tests_cant": "continuous", "anchors": ["rsbeams/pkcli/lattice.py:_get_gradient", "rsbeams/pkcli/lattice.py:elegant_to_warp"]}
{"id": "C48", "title": "Trace import keeps every element", "statement": "Importing a Trace3D or TraceWin deck yields one beamline element (or documented group) per element line, in order, with the signs and values written in the deck.", "quantifier": "all decks", "why_tests_cant": "unbounded decks", "anchors": ["rsbeams/rslattice/trace3d_parser.py:Trace3d.parse_set_beamline", "rsbeams/rslattice/trace3d_parser.py:TraceWin"]}
{"id": "C49", "title": "TraceWin frequency applies to later cavities", "statement": "Cavities after a frequency card get that frequency.", "quantifier": "all decks", "why_tests_cant": "position dependent state over unbounded decks", "anchors": ["rsbeams/rslattice/trace3d_parser.py:TraceWin.handle_freq"]}
{"id": "C50", "title": "Expanding a DTL cell or merging cavities conserves length", "statement": "The elements generated for a dtl cell add up to the cell length, and the cavity post-processing conserves the total length and gives each cavity its own phase.", "quantifier": "all decks", "why_tests_cant": "unbounded decks", "anchors": ["rsbeams/rslattice/trace3d_parser.py:TraceWin.handle_dtl_cell", "rsbeams/rslattice/trace3d_parser.py:Trace3d.handle_cavities"]}
{"id": "C51", "title": "Binary SDDS write/read round trip", "statement": "Saving parameters and columns of doubles in binary mode and reading the file back returns the same names, the same number of rows and bit-for-bit the same values.", "quantifier": "all numbers of parameters, columns and rows and all bit patterns", "why_tests_cant": "unbounded data; byte offsets accumulate", "anchors": ["rsbeams/rsdata/SDDS.py:writeSDDS.save_sdds", "rsbeams/rsdata/SDDS.py:readSDDS.read"]}
{"id": "C52", "title": "Header metadata round trip", "statement": "Every name, unit, symbol, description and type given to the writer is reported unchanged by the reader.", "quantifier": "all metadata strings", "why_tests_cant": "unbounded strings with quoting characters", "anchors": ["rsbeams/rsdata/SDDS.py:writeSDDS", "rsbeams/rsdata/datatypes.py:Datum.parse_namelist"]}
{"id": "C53", "title": "Opening a file always finishes", "statement": "Opening any file either succeeds or raises, in particular on truncated files.", "quantifier": "all byte strings and all truncation points", "why_tests_cant": "crash points: the file may be cut anywhere", "anchors": ["rsbeams/rsdata/utils.py:_read_line", "rsbeams/rsdata/SDDS.py:readSDDS._read_header"]}
{"id": "C54", "title": "Files that are not SDDS are rejected", "statement": "A file whose first line that is not blank or a comment does not contain SDDS1 is rejected, and so is a header line that is neither a known namelist nor the data command.", "quantifier": "all files", "why_tests_cant": "unbounded files", "anchors": ["rsbeams/rsdata/SDDS.py:readSDDS._read_header"]}
{"id": "C55", "title": "Header comments and blank lines are ignored", "statement": "Inserting comment or blank lines between header lines changes neither the metadata nor the data that is read.", "quantifier": "all files and positions", "why_tests_cant": "positions are unbounded", "anchors": ["rsbeams/rsdata/utils.py:_read_line", "rsbeams/rsdata/SDDS.py:readSDDS._parse_header"]}
{"id": "C56", "title": "All pages are read in order", "statement": "read() of a binary file returns all pages of parameters and columns in file order.", "quantifier": "all page counts, row counts and contents", "why_tests_cant": "unbounded pages; offsets accumulate", "anchors": ["rsbeams/rsdata/SDDS.py:readSDDS.read"]}
{"id": "C57", "title": "Page selection selects", "statement": "read(pages=S) returns exactly the pages of read() whose index is in S, in order.", "quantifier": "all page sets and files", "why_tests_cant": "page sets and layouts are unbounded", "anchors": ["rsbeams/rsdata/SDDS.py:readSDDS.read"]}
{"id": "C58", "title": "Buffering is an implementation detail", "statement": "Reading with buffer=True and buffer=False gives the same result.", "quantifier": "all files", "why_tests_cant": "depends on particular byte values at particular places", "anchors": ["rsbeams/rsdata/SDDS.py:readSDDS._check_file_end", "rsbeams/rsdata/SDDS.py:readSDDS.read"]}
{"id": "C59", "title": "Strings in binary files are returned verbatim", "statement": "Variable-length string parameters and columns are returned as stored.", "quantifier": "all strings", "why_tests_cant": "all lengths, including zero and above the buffer limit", "anchors": ["rsbeams/rsdata/SDDS.py:readSDDS._get_parameter_data", "rsbeams/rsdata/struct_data.py:StructData"]}
{"id": "C60", "title": "ASCII files: all pages are read", "statement": "read() of an ASCII file returns all pages, each with its own parameters and rows.", "quantifier": "all page and row counts", "why_tests_cant": "line positions accumulate over unbounded pages", "anchors": ["rsbeams/rsdata/SDDS.py:readSDDS._get_column_data"]}
{"id": "C61", "title": "Reading twice is the same as reading once", "statement": "A second read() of the same reader returns the same parameters and columns.", "quantifier": "all files and numbers of reads", "why_tests_cant": "histories", "anchors": ["rsbeams/rsdata/SDDS.py:readSDDS.read"]}
{"id": "C62", "title": "Fixed parameter values survive", "statement": "A parameter written with a fixed value is reported by the reader with that value on every page, and does not disturb the others.", "quantifier": "all values", "why_tests_cant": "the value ranges over all numbers and strings, including falsy ones", "anchors": ["rsbeams/rsdata/SDDS.py:writeSDDS.create_param", "rsbeams/rsdata/datatypes.py:Parameter"]}
{"id": "C63", "title": "A failed save does not destroy an existing file", "statement": "If save_sdds cannot write a consistent file it leaves what was on disk.", "quantifier": "all states and crash points", "why_tests_cant": "crash points", "anchors": ["rsbeams/rsdata/SDDS.py:writeSDDS.save_sdds"]}
{"id": "C64", "title": "Column types are honoured", "statement": "Columns of different declared types written together are read back with their values.", "quantifier": "all type combinations and values", "why_tests_cant": "combinations of types and values", "anchors": ["rsbeams/rsdata/SDDS.py:writeSDDS.save_sdds"]}
{"id": "C65", "title": "elegant phase space conversion round trip", "statement": "Writing a species in elegant format and reading it back gives the same coordinates, for non-zero total momentum.", "quantifier": "all particle numbers and coordinates", "why_tests_cant": "continuum", "anchors": ["rsbeams/rsdata/switchyard.py:read_elegant", "rsbeams/rsdata/switchyard.py:write_elegant"]}
{"id": "C66", "title": "Registered species are never replaced", "statement": "After any sequence of reads, the species under a name is the first one read under that name, and reads under other names do not affect it.", "quantifier": "all histories of reads", "why_tests_cant": "histories", "anchors": ["rsbeams/rsdata/switchyard.py:Switchyard.read"]}
{"id": "C67", "title": "OPAL step selection", "statement": "Reading without a step number takes the largest step present; reading step k takes step k.", "quantifier": "all step sets and all k including 0", "why_tests_cant": "all k", "anchors": ["rsbeams/rsdata/switchyard.py:read_opal"]}
{"id": "C68", "title": "Genesis output is centred in time and otherwise faithful", "statement": "write_genesis writes one row per particle in order, the time column has zero mean and unchanged differences, the other columns are unchanged.", "quantifier": "all bunches", "why_tests_cant": "unbounded", "anchors": ["rsbeams/rsdata/switchyard.py:write_genesis"]}
{"id": "C69", "title": "Unphysical kinematic input gives no finite answer", "statement": "A momentum-like, energy or gamma value that no particle of the given mass can have (gamma below one, speed above c, total energy below the rest energy) is not turned into finite kinematic quantities.", "quantifier": "all real inputs outside the physical range, all eight kinds", "why_tests_cant": "the unphysical range is a continuum and each kind fails differently", "anchors": ["rsbeams/rsstats/kinematic.py:Converter"]}
{"id": "C70", "title": "Uniform distributions fill the unit balls", "statement": "make_unif_distrib gives every particle a position and a momentum strictly inside the unit ball, exactly num_ptcls of them, and returns whenever the random generator keeps producing points inside the ball.", "quantifier": "all particle numbers and all random streams", "why_tests_cant": "the rejection loop has no bound and random streams are infinite", "anchors": ["rsbeams/rsptcls/RsDistrib6D.py:RsDistrib6D.make_unif_distrib"]}
{"id": "C71", "title": "Gaussian distributions respect max_rms_fac", "statement": "make_gauss_distrib produces exactly num_ptcls values per coordinate, each within max_rms_fac standard deviations, and discards no value that is within them.", "quantifier": "all particle numbers, cut-offs and random streams", "why_tests_cant": "rejection sampling over infinite random streams", "anchors": ["rsbeams/rsptcls/RsDistrib6D.py:RsDistrib6D.make_gauss_distrib"]}
{"id": "C72", "title": "clean_phase_space_6d yields a centred unit beam", "statement": "After clean_phase_space_6d every coordinate has zero mean and unit rms.", "quantifier": "all beams of any number of particles", "why_tests_cant": "depends on the order of centring, decorrelating and scaling for arrays of any size", "anchors": ["rsbeams/rsptcls/RsDistrib6D.py:RsDistrib6D.clean_phase_space_6d"]}
{"id": "C73", "title": "Reference-particle kinematics and peak current", "statement": "For positive mass, gamma0 >= 1, gamma0^2-(beta0 gamma0)^2=1, |beta0|<1, (gamma0 m)^2=p^2+m^2, and the rms peak current is charge*beta0*c divided by the rms bunch length.", "quantifier": "all momenta, positive masses, charges and beams", "why_tests_cant": "continuous inputs and beams of any size", "anchors": ["rsbeams/rsptcls/RsPtclBeam6D.py:RsPtclBeam6D.get_beta0_gamma0", "rsbeams/rsptcls/RsPtclBeam6D.py:RsPtclBeam6D.get_gamma0", "rsbeams/rsptcls/RsPtclBeam6D.py:RsPtclBeam6D.get_beta0", "rsbeams/rsptcls/RsPtclBeam6D.py:RsPtclBeam6D.get_peak_current_rms"]}
{"id": "C74", "title": "Component edits and constructor checks", "statement": "offset_component and multiply_component change exactly the named coordinate of every particle and refuse any other index; a distribution is constructed only for a positive particle number, a known type and a positive cut-off.", "quantifier": "all beams, values, indices and constructor arguments", "why_tests_cant": "unbounded arrays and all integer indices", "anchors": ["rsbeams/rsptcls/RsDistrib6D.py:RsDistrib6D.offset_component", "rsbeams/rsptcls/RsDistrib6D.py:RsDistrib6D.multiply_component", "rsbeams/rsptcls/RsDistrib6D.py:RsDistrib6D.__init__"]}
{"id": "C75", "title": "Extra arguments reach the distribution", "statement": "cdf_on_grid and sample call the distribution with the grid followed by exactly the extra arguments given.", "quantifier": "all argument tuples and single values", "why_tests_cant": "the values form a continuum and only special ones are dropped", "anchors": ["rsbeams/rsstats/sample.py:cdf_on_grid"]}
{"id": "C76", "title": "The FFT tune of an oscillation is its tune", "statement": "For a coordinate oscillating with m whole periods over the n analysed turns (0<m<n/2), with any amplitude, phase and closed-orbit offset, tune_fft returns m/n.", "quantifier": "all n, m, amplitudes, phases and offsets", "why_tests_cant": "needs the discrete Fourier transform of every length", "anchors": ["rsbeams/rsptcls/phases.py:tune_fft"]}
{"id": "C77", "title": "The insert has the requested phase advance", "statement": "The integral of 1/beta over the insert, with the beta function that generate_sequence uses, is 2 pi times the requested phase.", "quantifier": "all lengths and phases", "why_tests_cant": "an integral over a continuum of parameters", "anchors": ["rsbeams/rslattice/nonlinear.py:NonlinearInsert.generate_sequence"]}
{"id": "C78", "title": "One MAD-X line per slice", "statement": "After generate_sequence, create_madx returns one nllens line per slice, in order, carrying that slice's knll and cnll.", "quantifier": "all parameters and slice counts", "why_tests_cant": "unbounded slice counts", "anchors": ["rsbeams/rslattice/nonlinear.py:NonlinearInsert.create_madx"]}
{"id": "C79", "title": "Settings are stored under their own names", "statement": "set_transverse_coordinates and the setters store every valid keyword or assigned value in the attribute of that name and leave the others alone.", "quantifier": "all values and bunch states", "why_tests_cant": "a wrong target shows only for some argument combinations", "anchors": ["rsbeams/rsptcls/bunch.py:StandardBunch.set_transverse_coordinates", "rsbeams/rsptcls/bunch.py:NonlinearBunch.cutoff"]}
{"id": "C80", "title": "Nonlinear waterbag and Gaussian bunches respect their energy bound", "statement": "Every particle made by distribute_waterbag has a Hamiltonian strictly between 0 and the total emittance, and every particle made by the nonlinear distribute_Gaussian at most cutoff times the emittance.", "quantifier": "all random streams, all Twiss parameters, all particle numbers", "why_tests_cant": "random rejection loops of unbounded length", "anchors": ["rsbeams/rsptcls/bunch.py:NonlinearBunch.distribute_waterbag", "rsbeams/rsptcls/bunch.py:NonlinearBunch.distribute_Gaussian"]}
{"id": "C81", "title": "The linear Gaussian bunch is matched", "statement": "When the normal draws have unit variance and no correlation, distribute_Gaussian gives the second moments emit*beta, -emit*alpha, emit*gamma in both planes.", "quantifier": "all draws, Twiss parameters and emittances", "why_tests_cant": "continuum of parameters", "anchors": ["rsbeams/rsptcls/bunch.py:StandardBunch.distribute_Gaussian"]}
{"id": "C82", "title": "Longitudinal coordinates do not disturb the rest", "statement": "set_longitudinal_coordinates scales its draws by the given (or stored) widths and changes neither transverse coordinates nor identifiers.", "quantifier": "all bunches and draws", "why_tests_cant": "unbounded particle numbers", "anchors": ["rsbeams/rsptcls/bunch.py:StandardBunch.set_longitudinal_coordinates"]}
{"id": "C83", "title": "The magnet profile shows the magnets", "statement": "plot_profile draws, for every table, one rectangle per magnet row from the end of the previous row to the end of its own, in the colour of its family and in order, none for other elements, and they do not overlap when positions do not decrease. Nothing coloured is drawn where there is no magnet of that colour.", "quantifier": "all tables, scales and heights", "why_tests_cant": "unbounded tables and continuous positions", "anchors": ["rsbeams/rsplot/util.py:plot_profile"]}
{"id": "C84", "title": "Sextupole strengths are converted with the rigidity", "statement": "The elegant to Warp conversion gives a sextupole the field k2 times the magnetic rigidity.", "quantifier": "all momenta, masses and strengths", "why_tests_cant": "continuous", "anchors": ["rsbeams/pkcli/lattice.py:_parameter_conversions", "rsbeams/pkcli/lattice.py:_get_gradient"]}
{"id": "C85", "title": "Every element type the Warp writer lists can be converted", "statement": "elegant_to_warp converts a lattice made of elements of the types in the table of the writer, with the parameters elegant needs for them.", "quantifier": "all listed types and all parameter values", "why_tests_cant": "continuous parameters and every listed type", "anchors": ["rsbeams/pkcli/lattice.py:_parameter_conversions", "rsbeams/rslattice/formatted_writer.py:_FIELD_MAP"]}
{"id": "C86", "title": "Bends take over their edges", "statement": "The bend post-processing of a Trace3D line takes the edges beside every bend out of the line, puts their angles, gap and fringe integral on the bend, and changes nothing else.", "quantifier": "all beamlines of bends between edges and other elements, and all parameter values", "why_tests_cant": "unbounded beamlines with shared state", "anchors": ["rsbeams/rslattice/trace3d_parser.py:Trace3d.handle_bends"]}
{"id": "C87", "title": "Reading an opened file finishes", "statement": "Once a file is open, read() ends, with tables or with an exception, whatever bytes follow the header.", "quantifier": "all files, with and without the buffer, all page selections", "why_tests_cant": "endless loops show only on particular bytes", "anchors": ["rsbeams/rsdata/SDDS.py:readSDDS.read"]}
{"id": "C88", "title": "What the writer accepts it can save", "statement": "Every parameter create_param accepts can be saved by save_sdds.", "quantifier": "all writers, types and values", "why_tests_cant": "all combinations of types and values", "anchors": ["rsbeams/rsdata/SDDS.py:writeSDDS.create_param", "rsbeams/rsdata/SDDS.py:writeSDDS.save_sdds"]}
{"id": "C89", "title": "ASCII SDDS write/read round trip", "statement": "Saving parameters and columns of numbers in ASCII mode and reading the file back returns the same names, the same number of rows and the numbers that were printed, for columns of any mixture of types.", "quantifier": "all numbers of parameters, columns and rows, all values and all ways of printing them", "why_tests_cant": "unbounded data; line positions accumulate", "anchors": ["rsbeams/rsdata/SDDS.py:writeSDDS.save_sdds", "rsbeams/rsdata/SDDS.py:readSDDS.read"]}
{"id": "C90", "title": "Supported codes can be read and written", "statement": "Every code name is_supported accepts can be used in read and in write; any other name is refused by both and the registered species stay as they are.", "quantifier": "all code names, species names, files and registered species", "why_tests_cant": "all strings and all states", "anchors": ["rsbeams/rsdata/switchyard.py:Switchyard.is_supported", "rsbeams/rsdata/switchyard.py:Switchyard.read", "rsbeams/rsdata/switchyard.py:Switchyard.write"]}
{"id": "C91", "title": "The last coordinate is the total momentum", "statement": "After reading a file, pt of every particle is its total momentum beta gamma, as the conventions of the class say.", "quantifier": "all OPAL steps and elegant files, all momenta", "why_tests_cant": "continuous momenta and unbounded files", "anchors": ["rsbeams/rsdata/switchyard.py:read_opal", "rsbeams/rsdata/switchyard.py:read_elegant", "rsbeams/rsdata/switchyard.py:Switchyard.__init__"]}
{"id": "C92", "title": "The total charge is that of the file", "statement": "The total charge of a species read from a file is the charge the file gives: the Charge parameter of an elegant file, in its data or as a fixed value, or the charge attribute of an OPAL step.", "quantifier": "all headers, pages, steps and values, zero included", "why_tests_cant": "all values and all places of the charge", "anchors": ["rsbeams/rsdata/switchyard.py:read_elegant", "rsbeams/rsdata/switchyard.py:read_opal"]}
{"id": "C93", "title": "Writing without a name writes the first species", "statement": "write without a species name writes the species that was registered first.", "quantifier": "all registered species, codes and histories", "why_tests_cant": "all histories", "anchors": ["rsbeams/rsdata/switchyard.py:Switchyard.write"]}
{"id": "C94", "title": "One particle per row of an elegant file", "statement": "Reading an elegant file gives one particle per row, in order over all pages, with positions unchanged, momenta equal to angle times p, and ct equal to c times t.", "quantifier": "all headers, numbers of pages and rows, and all values", "why_tests_cant": "unbounded pages and rows", "anchors": ["rsbeams/rsdata/switchyard.py:read_elegant"]}
{"id": "C95", "title": "OPAL output lists every particle", "statement": "The OPAL file has the number of particles on its first line and then one line per particle, in order, with its six coordinates; particles read from an OPAL step are written back unchanged.", "quantifier": "all species and all OPAL steps", "why_tests_cant": "unbounded particle numbers", "anchors": ["rsbeams/rsdata/switchyard.py:Switchyard.write_opal"]}
{"id": "C96", "title": "Truncated binary files are detected", "statement": "Reading a binary SDDS file that stops anywhere inside a page raises an exception and returns no data.", "quantifier": "all headers, pages and cut positions", "why_tests_cant": "every cut position of unbounded files", "anchors": ["rsbeams/rsdata/SDDS.py:readSDDS.read"]}
{"id": "C97", "title": "Header commands may go over several lines", "statement": "A header whose commands are broken into several lines between their attributes means the same as the header with each command on one line: opening has the same outcome and descriptions, and the data after it, binary or ASCII, are read the same.", "quantifier": "all headers, all ways of breaking commands into lines outside quotes, all data", "why_tests_cant": "unbounded headers and ways of breaking them; positions of the data depend on the lines counted", "anchors": ["rsbeams/rsdata/SDDS.py:readSDDS._read_header", "rsbeams/rsdata/SDDS.py:readSDDS.__init__"]}
{"id": "C98", "title": "The beamline profile draws every requested quantity", "statement": "beamline_profile draws one curve per requested quantity, in order, through the points (s, value) of all rows, named by its symbol or description, names all quantities and units on the axis, and draws the magnets of the table; a quantity that is not in the file is an error.", "quantifier": "all files, pages, quantities and limits", "why_tests_cant": "unbounded tables and all lists of quantities", "anchors": ["rsbeams/rsplot/beam_plots.py:beamline_profile"]}
{"id": "C99", "title": "The phase space plot shows all particles", "statement": "The four panels of phase_space show every particle of the page at its place in (x, xp), (y, yp), (x, y) and in time and relative momentum measured from their averages.", "quantifier": "all files, pages, bins and particle coordinates", "why_tests_cant": "unbounded particle numbers and continuous coordinates", "anchors": ["rsbeams/rsplot/beam_plots.py:phase_space"]}
{"id": "C100", "title": "The longitudinal plot shows the current of the charge", "statement": "longitudinal_phase_space shows every particle, and the current of each time bin is the charge of its particles over its length, for the given charge or the charge in the file; the current adds up to the charge. Without a charge in the file the profile has a peak of one.", "quantifier": "all files, pages, charges and particle coordinates", "why_tests_cant": "unbounded particle numbers and continuous coordinates", "anchors": ["rsbeams/rsplot/beam_plots.py:longitudinal_phase_space"]}
{"id": "C101", "title": "Projections count every particle", "statement": "The horizontal and vertical phase space figures show every particle, scaled to millimetres and milliradians, and the histograms at their sides count every particle once.", "quantifier": "all files, pages and particle coordinates", "why_tests_cant": "unbounded particle numbers and continuous coordinates", "anchors": ["rsbeams/rsplot/beam_plots.py:phase_space_projection", "rsbeams/rsplot/beam_plots.py:horizontal_phase_space", "rsbeams/rsplot/beam_plots.py:vertical_phase_space"]}
{"id": "C102", "title": "A phase space object knows its number of particles and its files", "statement": "After any sequence of calls get_num_ptcls is the number of columns of get_array_6d, and the array that was last written under a file name is the one read_array returns for that name.", "quantifier": "all objects, arrays, file names and histories of calls", "why_tests_cant": "all histories of calls and all files", "anchors": ["rsbeams/rsptcls/RsPhaseSpace6D.py:RsPhaseSpace6D"]}
{"id": "C103", "title": "Scatter plots show every particle", "statement": "plot_data6d makes a new figure with one dot per particle on axes that are symmetric about zero and hold all dots, with the labels that were set; an object can be made for two particles or more.", "quantifier": "all arrays, pairs of indices (negative ones included) and labels", "why_tests_cant": "unbounded particle numbers, continuous coordinates and all texts", "anchors": ["rsbeams/rsplot/RsScatterPS6D.py:RsScatterPS6D"]}
{"id": "C104", "title": "Contour levels span the field", "statement": "gen_contour_levels returns as many equally spaced levels as asked for, from minus to plus the largest absolute value of the field times the multiplier, to three decimals, so that with the default arguments every value of the field is between the first and the last level.", "quantifier": "all fields, numbers of levels and multipliers", "why_tests_cant": "continuous values and unbounded fields", "anchors": ["rsbeams/rsplot/plot_ptcls.py:gen_contour_levels"]}
{"id": "C105", "title": "Scatter and contour plots lose no particle", "statement": "scatter_contour draws a dot for every particle (scatter), a line through all of them (line), a filled density of the histogram of all particles (contour), or the density and dots for exactly the particles outside its lowest outline (combo), on the axes asked for.", "quantifier": "all particle coordinates, kinds of plot, divisions and levels", "why_tests_cant": "unbounded particle numbers and continuous coordinates", "anchors": ["rsbeams/rsplot/plot_ptcls.py:scatter_contour"]}
{"id": "C106", "title": "The constants can be used", "statement": "Importing rsconst defines every constant from the constants of scipy, for any values of those.", "quantifier": "all values of the constants", "why_tests_cant": "all values; the order of the assignments matters", "anchors": ["rsbeams/rsphysics/rsconst.py:KG_to_EV"]}
{"id": "C107", "title": "The printed report tells the truth", "statement": "Calling a Converter prints, and returns, all eight quantities of one particle, the one that was given among them, each under its name and with the unit its number is in; the first lines repeat the quantity and the mass as they were given. With silent=True the same dictionary is returned and nothing is printed.", "quantifier": "all quantities, values, masses, units and ways of writing numbers", "why_tests_cant": "continuous values and all combinations of units", "anchors": ["rsbeams/rsstats/kinematic.py:Converter.__call__"]}
{"id": "C108", "title": "The command line does what the keywords do", "statement": "The program runs exactly when the command line names one of the eight quantities and only that one, with units SI or eV; otherwise it exits without a report. When it runs, each setting is that of the last option naming it or the default, and result and report are those of the Converter made with these keywords.", "quantifier": "all command lines of any length", "why_tests_cant": "unbounded lists of options with continuous values", "anchors": ["rsbeams/rsstats/kinematic.py:main", "rsbeams/rsstats/kinematic.py:parser", "rsbeams/rsstats/kinematic.py:Converter.__init__"]}
{"id": "C109", "title": "Questions do not change the beam", "statement": "Asking a particle beam for its attributes, averages, rms values, Twiss parameters or peak current, any number of times and in any order, leaves its particles and attributes as they are, and the same question gets the same answer; its Twiss objects change only by a successful calc_twiss6d.", "quantifier": "all beams and all histories of questions, those that raise included", "why_tests_cant": "all histories; the arrays are changed in place", "anchors": ["rsbeams/rsptcls/RsPtclBeam6D.py:RsPtclBeam6D"]}
{"id": "C110", "title": "A particle beam has the Twiss parameters it was made with", "statement": "The constructor returns an object only for a positive number of particles, a known distribution, a positive cut, positive betas and emittances that are not negative; the particles are then centred, have the second moments of the Twiss parameters asked for, and calc_twiss6d gives these back.", "quantifier": "all arguments and all random numbers drawn", "why_tests_cant": "continuous arguments and all random draws", "anchors": ["rsbeams/rsptcls/RsPtclBeam6D.py:RsPtclBeam6D.__init__", "rsbeams/rsptcls/RsDistrib6D.py:RsDistrib6D.__init__"]}
{"id": "C111", "title": "The eigenvalue solver finishes", "statement": "jacobi_eigen_solver6d returns a decomposition for every symmetric matrix, within its fifty passes, and rm_correlations6d returns for every beam.", "quantifier": "all symmetric 6x6 matrices and all beams", "why_tests_cant": "continuous matrices and a loop that may not end", "anchors": ["rsbeams/rsstats/stats6d.py:jacobi_eigen_solver6d", "rsbeams/rsstats/stats6d.py:rm_correlations6d"]}
{"id": "C112", "title": "A matching that fails changes nothing", "statement": "make_twiss_dist_6d succeeds exactly when all three planes have a positive beta and an emittance that is not negative. When it raises, or when offset_component or multiply_component raises, the particles are as they were, so that the call can be corrected and repeated.", "quantifier": "all beams, all Twiss parameters or missing entries, all indices and all histories of calls", "why_tests_cant": "continuous parameters, all points of failure and all histories", "anchors": ["rsbeams/rsptcls/RsDistrib6D.py:RsDistrib6D.make_twiss_dist_6d", "rsbeams/rsptcls/RsDistrib6D.py:RsDistrib6D.offset_component", "rsbeams/rsptcls/RsDistrib6D.py:RsDistrib6D.multiply_component"]}
{"id": "C113", "title": "Extremes of a beam", "statement": "For a beam of at least one particle calc_min6d and calc_max6d return for each coordinate the least and the greatest value among the particles, whatever their order; the averages lie between, and after sub_avg6d zero does. An empty beam raises an error.", "quantifier": "all beams of any number of particles", "why_tests_cant": "unbounded numbers of particles and continuous coordinates", "anchors": ["rsbeams/rsstats/stats6d.py:calc_min6d", "rsbeams/rsstats/stats6d.py:calc_max6d"]}
{"id": "C114", "title": "A beamline call that fails changes nothing", "statement": "When a call on a beamline raises, all sequences and the name, type and parameters of every element are as before, so that the call can be corrected and repeated.", "quantifier": "all histories of calls on any number of beamlines, and every call that raises", "why_tests_cant": "all histories and all points of failure", "anchors": ["rsbeams/rslattice/Beamline.py:StructuredBeamline.add_element", "rsbeams/rslattice/Beamline.py:StructuredBeamline.add_beamline", "rsbeams/rslattice/Beamline.py:StructuredBeamline.edit_element", "rsbeams/rslattice/Beamline.py:StructuredBeamline.load_beamline"]}
{"id": "C115", "title": "One parser serves for several beamlines", "statement": "A BeamlineParser called after set_beamline(n) returns the beamline that a parser made for n returns, whatever was asked of it before; a call does not change what an earlier call returned.", "quantifier": "all files, names and histories of calls of one parser", "why_tests_cant": "all histories of calls and all files", "anchors": ["rsbeams/rslattice/lte_parser.py:BeamlineParser.set_beamline", "rsbeams/rslattice/lte_parser.py:BeamlineParser.__call__", "rsbeams/rslattice/lte_parser.py:BeamlineParser.find_beamlines"]}
{"id": "C116", "title": "A TraceWin parser gives the same lattice at every call", "statement": "Every call of a TraceWin object returns the beamline of its deck, leaves what earlier calls returned as it was, and a call that raised raises again.", "quantifier": "all decks and any number of calls of one object", "why_tests_cant": "all histories of calls and unbounded decks", "anchors": ["rsbeams/rslattice/trace3d_parser.py:BeamlineParser.__call__", "rsbeams/rslattice/trace3d_parser.py:BeamlineParser._sanitize_lattice_definition", "rsbeams/rslattice/trace3d_parser.py:Trace3d.parse_set_beamline", "rsbeams/rslattice/trace3d_parser.py:TraceWin"]}
{"id": "C117", "title": "Of two particles of one mass the faster has more of everything", "statement": "If two particles of the same mass are described by the same kind of quantity, the second with more of it, then momentum, velocity, energy, kinetic energy, beta-gamma, rigidity, beta and gamma reported are all greater for the second, whatever the units; of two particles with the same momentum the heavier is slower, with less kinetic and more total energy and the same rigidity.", "quantifier": "all pairs of particles, masses, kinds of input and units", "why_tests_cant": "all real inputs", "anchors": ["rsbeams/rsstats/kinematic.py:Converter.__call__", "rsbeams/rsstats/kinematic.py:Converter.start_momentum"]}
{"id": "C118", "title": "Averages and spreads do not depend on origin, units or order", "statement": "Shifting or rescaling coordinates shifts and rescales the averages, rescales variances and rms values by the size of the unit; the order of particles does not matter; an rms is zero exactly when all particles agree and at most half the extent of the beam.", "quantifier": "all beams, shifts, scales and permutations", "why_tests_cant": "all reals, any number of particles", "anchors": ["rsbeams/rsstats/stats6d.py:calc_avg6d", "rsbeams/rsstats/stats6d.py:calc_variance6d", "rsbeams/rsstats/stats6d.py:calc_rms6d", "rsbeams/rsstats/stats6d.py:calc_min6d", "rsbeams/rsstats/stats6d.py:calc_max6d"]}
{"id": "C119", "title": "Rounding to significant figures is the nearest, ordered and symmetric", "statement": "specify_significant_figures returns a number with the asked number of figures, none with as many is nearer; numbers that have no more are unchanged; sign and decimal point go through, and a greater number is never rounded to a smaller one.", "quantifier": "all real numbers and all numbers of figures from one", "why_tests_cant": "all reals and all numbers of figures", "anchors": ["rsbeams/rsstats/stats6d.py:specify_significant_figures"]}
{"id": "C120", "title": "Measured Twiss parameters go through linear optics", "statement": "Behind a linear map of unit determinant in each plane the emittance calc_twiss6d measures is unchanged and alpha, beta, gamma are those of the textbook; units, signs and origin of the coordinates rescale them accordingly.", "quantifier": "all beams and all linear maps of the planes", "why_tests_cant": "all reals, any number of particles", "anchors": ["rsbeams/rsptcls/RsDistrib6D.py:RsDistrib6D.calc_twiss6d", "rsbeams/rsstats/stats6d.py:calc_correlations6d"]}
{"id": "C121", "title": "The matrix of a line is that of its parts", "statement": "The matrix of a line made of the elements of two others is the product of their matrices, the second one to the left; n equal quadrupoles or drifts in a row have the matrix of one that is n times as long.", "quantifier": "all histories that build the lines, all lengths and strengths other than zero, all n", "why_tests_cant": "continuous parameters, lines of unbounded length and all histories", "anchors": ["rsbeams/rslattice/Beamline.py:StructuredBeamline.generate_matrix"]}
{"id": "C122", "title": "Phase advances and tunes do not depend on amplitude", "statement": "The phase advance depends on the directions of the two points only; advances add up modulo a full turn and there and back make one. The tune is the same for a signal of another amplitude or sign and for the signal read backwards. It depends on the turns asked for only, and negative turn numbers count from the last turn.", "quantifier": "all points of the plane, all signals of any length", "why_tests_cant": "continuous values and unbounded signals", "anchors": ["rsbeams/rsptcls/phases.py:phase_advance", "rsbeams/rsptcls/phases.py:tune_fft"]}
{"id": "C123", "title": "The lenses of an insert add up to its phase advance", "statement": "The strengths of all lenses of a nonlinear insert sum up to t c^2 times its phase advance 2 pi phase, up to an error that goes to zero like one over the number of slices; strengths are proportional to t and c^2 and independent of the length, apertures proportional to c and the root of the length, and lenses nearer to the centre are stronger and narrower, the same on both sides.", "quantifier": "all lengths, phases, strengths, apertures and numbers of slices", "why_tests_cant": "continuous parameters and a limit in the number of slices", "anchors": ["rsbeams/rslattice/nonlinear.py:NonlinearInsert.generate_sequence"]}
{"id": "C124", "title": "Rows that do not fit the columns are refused", "statement": "Reading an ASCII SDDS file raises when a page has rows with more or fewer values than there are columns, or fewer rows than it announces, wherever in the file the page is and whatever follows it; a file that describes arrays is refused when it is opened.", "quantifier": "all headers, pages before and text after the page, all rows, with and without the buffer", "why_tests_cant": "all files of any length and every position of the fault", "anchors": ["rsbeams/rsdata/SDDS.py:readSDDS.read", "rsbeams/rsdata/SDDS.py:readSDDS._get_reader"]}
{"id": "C125", "title": "ASCII files without row counts", "statement": "read() of an ASCII file whose header says no_row_counts=1 returns each page with its parameters and all of its rows, the rows of a page ending at an empty line or at the end of the file.", "quantifier": "all numbers of pages, parameters, columns and rows, all contents, any number of empty lines at the end; buffered or not", "why_tests_cant": "the end of each page is found by looking at the lines themselves; unbounded rows and pages", "anchors": ["rsbeams/rsdata/SDDS.py:readSDDS._get_ascii_row_count", "rsbeams/rsdata/SDDS.py:readSDDS._compose_parameter_datatypes", "rsbeams/rsdata/SDDS.py:readSDDS.read"]}
{"id": "C126", "title": "Definitions are kept in order; refused ones leave no trace", "statement": "After any sequence of create_column and create_parameter calls the writer holds exactly the accepted definitions, in the order of the calls; a definition with an unknown type, or with both a value and a fixed value, raises AssertionError and changes nothing.", "quantifier": "all sequences of calls, all definitions", "why_tests_cant": "arbitrary call histories with failures in between", "anchors": ["rsbeams/rsdata/SDDS.py:writeSDDS.create_column", "rsbeams/rsdata/SDDS.py:writeSDDS.create_parameter"]}
{"id": "C127", "title": "Samples are quantiles of the density", "statement": "With invert='numeric' each sample is the grid point whose share of the density contains the random number: a point is drawn by an interval of numbers exactly as long as its share, a larger number never draws a smaller sample, no sample falls where the density is zero, the density need not be normalised, and moving or stretching the interval moves and stretches the samples with it. A density that is zero everywhere is refused.", "quantifier": "every density that is nowhere negative on the grid and somewhere positive, every interval, grid size, number of samples, both generators and every sequence of numbers in [0,1)", "why_tests_cant": "tests compare histograms of a few densities within a tolerance; the share of every point and the order must hold for all densities and all numbers", "anchors": ["rsbeams/rsstats/sample.py: sample, cdf_on_grid, _calculate_cdf"]}
{"id": "C128", "title": "The centroid of a kicked beam dies out and follows its settings", "statement": "The computed centroid is proportional to the offset, depends only on the fraction of the tune, is the same when tune and coefficients change sign, is not changed by coefficients of zero added at the end, and oscillates for ever without a tune spread. With a spread whose coefficients all have one sign it dies out: after n turns it is at most the offset over pi n |m0|.", "quantifier": "every number of turns, offset, tune and list of coefficients of any length", "why_tests_cant": "tests compare a few turns of one setting with stored numbers; symmetry and decay must hold for all settings and all turns", "anchors": ["rsbeams/rsphysics/decoherence.py: CentroidPosition.calculate_centroids, CentroidPosition.integrate_first_order, CentroidPosition.integrate_second_order, CentroidPosition.integrate_any_order"]}
{"id": "C129", "title": "The nonlinear potential is that of a magnetic field", "statement": "compute_potential of the nonlinear bunch is (x^2+y^2)/2 plus a part that satisfies Laplace's equation, as a field in vacuum must, at every point but the two singular ones. The nonlinear part is proportional to the strength t; lengths that grow by k make the potential grow by k^2; on the axes it is given by the inverse sine and the inverse hyperbolic sine.", "quantifier": "every strength, every c > 0 and every point of the plane", "why_tests_cant": "tests compare the value at a few points; a differential equation speaks of all points and no finite set of values settles it", "anchors": ["rsbeams/rsptcls/bunch.py: NonlinearBunch.compute_potential"]}
{"id": "C130", "title": "Histograms and currents do not depend on origin, units or order", "statement": "The current profile is the same whenever the bunch arrives and in whatever order its particles are listed; k times the charge gives k times the current, and a bunch k times as long a k-th of it with the time axis stretched. Histogram points of data in other units or from another origin have the same counts at positions converted likewise.", "quantifier": "every array of data, every factor k > 0, every shift, charge and number of bins, every permutation", "why_tests_cant": "tests compare a few arrays; the independence must hold for all data, factors and permutations", "anchors": ["rsbeams/rsplot/util.py: get_histogram_points, get_current_from_t"]}
{"id": "C131", "title": "Variables stored in a lattice file mean their values", "statement": "A lattice file in which lines of the form % expression sto name store values, and other lines use the names, gives the same beamline as the file in which the number is written wherever the name is used and nothing is stored, whatever the expressions and wherever in the file the values are stored.", "quantifier": "every lattice file, every expression, every set of names and every place of use", "why_tests_cant": "tests read a few files; names can collide with other words, and the replacements run one after another over every line", "anchors": ["rsbeams/rslattice/lte_parser.py: BeamlineParser, _sanitize_lattice_definition, _replace_stored_variables, parse_rpn"]}
{"id": "C132", "title": "The header of an SDDS file is reported as it was written", "statement": "Opening any SDDS file, whoever wrote it, in any order of commands and attributes, with or without quotes and with escaped quotes and backslashes, reports for every parameter and every column exactly the name, symbol, units, description, format string and type the header states, the empty text for those it does not state, and for a parameter with a fixed value that value.", "quantifier": "every header, every data, every buffering and every number of pages", "why_tests_cant": "texts are unbounded and pass through a splitting on quotes, blanks, commas and equals signs", "anchors": ["rsbeams/rsdata/SDDS.py: readSDDS, StructData, Datum, Parameter, Column"]}
{"id": "C133", "title": "The order of bytes a binary SDDS file states is respected", "statement": "A binary SDDS file whose header states the order of the bytes of its numbers is read with those numbers, in either order; the data of a text file do not depend on what is stated.", "quantifier": "every header, every list of pages, every number, both ways of buffering", "why_tests_cant": "the numbers and their bytes are arbitrary and a misread number is as good a number as any other", "anchors": ["rsbeams/rsdata/SDDS.py: readSDDS"]}
{"id": "C134", "title": "An OPAL step is read exactly when it is complete", "statement": "Reading a step of an OPAL file succeeds exactly when the step is in the file with the six coordinates and a charge, each coordinate having one entry per particle or a single one for all of them; the registered species then has these particles in order and that charge. Otherwise the call raises and nothing is registered. Without a step number the last step is read in the same way, and the reader for elegant accepts no step number.", "quantifier": "every file, group, dataset, attribute, step number other than 0 (0 means the last step), species name and state of the switchyard", "why_tests_cant": "files, sizes of datasets and states are arbitrary", "anchors": ["rsbeams/rsdata/switchyard.py: read_opal", "rsbeams/rsdata/switchyard.py: Switchyard.read"]}
{"id": "C135", "title": "A file converted for another code describes the same particles", "statement": "An elegant file written from a step of an OPAL file, and an OPAL file written from an elegant file, describe the particles that were read, in their order: the same positions, the same direction and size of the momentum (in elegant files xp and yp are the slopes of the orbit and p is the total momentum, in OPAL files the three components are given), the same charge where there is one, and the same order of arrival.", "quantifier": "every file that can be read, every particle, any number of particles and pages", "why_tests_cant": "particles, files and numbers are arbitrary, and both files look right taken by themselves", "anchors": ["rsbeams/rsdata/switchyard.py: read_opal", "rsbeams/rsdata/switchyard.py: read_elegant", "rsbeams/rsdata/switchyard.py: Switchyard.write_elegant", "rsbeams/rsdata/switchyard.py: Switchyard.write_opal"]}
{"id": "C136", "title": "The length of an imported elegant lattice", "statement": "The length of a beamline imported from an elegant lattice file is the sum of the lengths of the elements its line stands for, each counted as often as it occurs; elements without a length count nothing, and lines that stand for the same elements have the same length however they are ordered and grouped. A length that is not a number makes the question raise.", "quantifier": "every lattice file without cycles, every line in it, every nesting and repetition, every expression for a length", "why_tests_cant": "lattices and their nesting are arbitrary", "anchors": ["rsbeams/rslattice/lte_parser.py: StringParser", "rsbeams/rslattice/Beamline.py: Beamline.length"]}
{"id": "C137", "title": "Elements and length of a lattice imported from records", "statement": "A beamline imported from a JSON lattice has the elements its line stands for, each as often as it occurs, also where lines of lines are taken backwards; its length is the sum of their recorded lengths, variables replaced by their values, so turning a line round does not change it. Elements without a length count nothing and a length that is a text naming no variable makes the question raise.", "quantifier": "every set of records whose numbers and names belong to one thing, every line, every nesting and reversal", "why_tests_cant": "records, nesting and reversals are arbitrary", "anchors": ["rsbeams/rslattice/templates/lattice_importer.py: parse_json", "rsbeams/rslattice/templates/lattice_importer.py: generate_beamline", "rsbeams/rslattice/Beamline.py: Beamline.length"]}
{"id": "C138", "title": "The Warp program for a whole elegant lattice", "statement": "Converting an elegant lattice to Warp writes a program in which every element of the line is defined exactly once and the line is the sum of the elements in order: a drift keeps its length, a quadrupole its length and its strength times the rigidity with the sign changed, a bend its length and the radius length over angle, anything else is a drift of its length, or of none; variables are replaced by their values. A quadrupole without strength and a bend by no angle make the conversion raise and nothing is written.", "quantifier": "every set of records, every line, every nesting and reversal, every energy and mass, every way of writing numbers", "why_tests_cant": "lattices, values and energies are arbitrary", "anchors": ["rsbeams/pkcli/lattice.py: elegant_to_warp", "rsbeams/pkcli/lattice.py: _parameter_conversions", "rsbeams/rslattice/formatted_writer.py: write_file", "rsbeams/rslattice/templates/lattice_importer.py: parse_json"]}
{"id": "C139", "title": "Positions of the elements of an imported lattice", "statement": "After importing a lattice, from an elegant file or from records, the edge of every element is the sum of the lengths of the elements before it along the line, through all levels of nesting, and the last one ends at the length of the line.", "quantifier": "every lattice file and every set of records, every line, every nesting, every choice of lengths", "why_tests_cant": "lattices and their nesting are arbitrary", "anchors": ["rsbeams/rslattice/Element.py: Element.edge", "rsbeams/rslattice/lte_parser.py: StringParser", "rsbeams/rslattice/templates/lattice_importer.py: parse_json", "rsbeams/rslattice/Beamline.py: Beamline.get_beamline_elements"]}
{"id": "C140", "title": "The transfer matrix of an imported lattice", "statement": "A lattice of drifts and quadrupoles imported from an elegant file or from records has a transfer matrix, the product of the matrices of its elements in the order of the line.", "quantifier": "every lattice file and every set of records, every line, every nesting", "why_tests_cant": "lattices and their nesting are arbitrary", "anchors": ["rsbeams/rslattice/Beamline.py: StructuredBeamline.generate_matrix", "rsbeams/rslattice/Beamline.py: matrices", "rsbeams/rslattice/lte_parser.py: StringParser", "rsbeams/rslattice/templates/lattice_importer.py: parse_json"]}
{"id": "C141", "title": "An imported lattice survives saving and loading", "statement": "A lattice imported from an elegant file, saved and loaded into a new beamline, has the same elements in the same order, each with the name, the type and the parameters of the file.", "quantifier": "every lattice file and every line in it", "why_tests_cant": "lattices and their nesting are arbitrary", "anchors": ["rsbeams/rslattice/Beamline.py: StructuredBeamline.save_beamline", "rsbeams/rslattice/Beamline.py: StructuredBeamline.load_beamline", "rsbeams/rslattice/lte_parser.py: StringParser"]}
{"id": "C142", "title": "What is read from an element line of a Trace3D deck", "statement": "For an element line of a Trace3D deck, cmt(i)=name nt(i)=type a(1,i)=values, Trace3d.get_element_name returns the name, Trace3d.get_element_type returns the number behind nt(i)=, and Trace3d.get_element_parameters returns the numbers behind a(1,i)= in order, under the parameter names of that type.", "quantifier": "every element line: every index, element name, type and list of values", "why_tests_cant": "names, indices and numbers are arbitrary text, and the words nt and a( may also occur in a name", "anchors": ["rsbeams/rslattice/trace3d_parser.py: Trace3d.get_element_name", "rsbeams/rslattice/trace3d_parser.py: Trace3d.get_element_type", "rsbeams/rslattice/trace3d_parser.py: Trace3d.get_element_parameters"]}
{"id": "C143", "title": "The transfer matrix of an imported TraceWin deck", "statement": "generate_matrix of a beamline imported from a TraceWin deck is the product of the transfer matrices of its cards, the first card acting first, with the lengths and strengths of the cards.", "quantifier": "every deck of cards, blank lines and comments", "why_tests_cant": "decks have any length, any cards in any order and any numbers", "anchors": ["rsbeams/rslattice/trace3d_parser.py: TraceWin", "rsbeams/rslattice/Beamline.py: StructuredBeamline.generate_matrix"]}
{"id": "C144", "title": "An imported TraceWin deck survives saving and loading", "statement": "A beamline imported from a TraceWin deck, saved and loaded into a new beamline, consists of the same elements in the same order, each with its type and its parameters.", "quantifier": "every deck of cards, blank lines and comments", "why_tests_cant": "decks have any length, any cards in any order and any numbers", "anchors": ["rsbeams/rslattice/trace3d_parser.py: TraceWin", "rsbeams/rslattice/Beamline.py: StructuredBeamline.save_beamline", "rsbeams/rslattice/Beamline.py: StructuredBeamline.load_beamline"]}
{"id": "C145", "title": "Positions of the elements of an imported TraceWin deck", "statement": "In a beamline imported from a TraceWin deck every card begins where the cards before it end: its first element lies at the sum of the lengths of the cards before it, and the length of the beamline is the sum of the lengths of all cards. In a DTL cell the first quadrupole begins with the cell, the gap lies behind the first quadrupole and the second quadrupole ends with the cell.", "quantifier": "every deck of cards, blank lines and comments, and every card in it", "why_tests_cant": "decks have any length, any cards in any order and any numbers", "anchors": ["rsbeams/rslattice/trace3d_parser.py: TraceWin", "rsbeams/rslattice/Beamline.py: StructuredBeamline.add_beamline_element"]}
{"id": "C146", "title": "The coordinates of a phase space object", "statement": "get_array_x, get_array_xp, get_array_y, get_array_yp, get_array_s and get_array_dp return as many numbers each as get_num_ptcls says, and together they are all the numbers of get_array_6d, row by row.", "quantifier": "all objects, arrays, files and histories of calls", "why_tests_cant": "all histories of calls, arrays of any size and all files", "anchors": ["rsbeams/rsptcls/RsPhaseSpace6D.py: RsPhaseSpace6D"]}
{"id": "C147", "title": "Offsets and factors of beam components combine", "statement": "After any sequence of calls of offset_component and multiply_component every component of the beam holds its original numbers with the offsets and factors given for it applied in their order. The calls for other components and refused calls have no effect on it, so that only the order of the calls for one component matters; the opposite calls in the opposite order restore the beam, the centroid is edited like every particle, and covariances are multiplied by the factors.", "quantifier": "all beams and all sequences of calls with any offsets, factors and component numbers", "why_tests_cant": "sequences have any length and mix components, and beams have any number of particles", "anchors": ["rsbeams/rsptcls/RsDistrib6D.py: RsDistrib6D.offset_component", "rsbeams/rsptcls/RsDistrib6D.py: RsDistrib6D.multiply_component"]}
