{"id": "C01", "title": "Weight context arithmetic is pointwise", "statement": "For weight contexts a and b, number v and operator op in {+,-,*,/}: (a op b).get_weight(id) = a.get_weight(id) op b.get_weight(id), (a op v).get_weight(id) = a.get_weight(id) op v, (v+a) and (v*a) give get_weight(id) op v, the default weight combines the same way, and v-a, v/a are rejected. This includes ids stored in only one or in neither operand.", "quantifier": "all pairs of contexts (any stored ids, any defaults), all ids, any arithmetic (also IEEE rounding)", "why_tests_cant": "ids present in only one operand, in none, or whose stored weight equals the default make unboundedly many combinations", "anchors": ["xboa/core/cpplib/WeightContext.hpp: adoptHits, add, subtract, multiply, divide, Add/Subtract/Multiply/Divide::operate", "xboa/core/pylib/PyWeightContext.cc"]}
{"id": "C02", "title": "Weight context programs behave like a map from track id to weight", "statement": "After any program of set_weight, set_default_weight, clear_weights and operator expressions over any number of named contexts, every context reads back exactly the value computed by an abstract 'function from id to weight, plus default' semantics; in particular operator expressions never change their operands, and updating one context never changes another.", "quantifier": "all finite programs, all contexts and ids", "why_tests_cant": "it is a statement about every history of mutations and about absence of aliasing", "anchors": ["xboa/core/cpplib/WeightContext.hpp", "xboa/core/pylib/PyWeightContext.cc: binary_operator"]}
{"id": "C03", "title": "Negation of a weight context", "statement": "~a gives each stored id weight 0 when it was non-zero and the old default when it was 0, and gives every other id weight 0, so ~ never leaves the set {0, old default}; the documented reading of ~ as a complement fails: ~(~a) is not a.", "quantifier": "all contexts and ids", "why_tests_cant": "covers all stored/default combinations; the failure of involution needs all contexts", "anchors": ["xboa/core/cpplib/WeightContext.hpp: op_not, Not::operate"]}
{"id": "C04", "title": "Reference counts equal the number of live handles", "statement": "For every history of creating, copying, assigning and destroying smart pointers, an object is deleted exactly when its last handle goes away, is never deleted twice, is never deleted while a handle still refers to it, and ref_count reports the number of live handles.", "quantifier": "all finite histories of pointer operations, including self assignment and null pointers", "why_tests_cant": "memory safety depends on every order of copy/assign/destroy", "anchors": ["xboa/core/utils/SmartPointer.hh"]}
{"id": "C05", "title": "Hit variables are independent", "statement": "hit.set(k,v) then hit.get(k) returns v; every stored variable that is not an alias of k (event_number/eventNumber, particle_number/particleNumber) keeps its value, in that hit and in every other hit; unknown names are rejected without changing anything.", "quantifier": "all hits, variable names, values", "why_tests_cant": "32 settable names times all other names, all states", "anchors": ["xboa/core/cpplib/Hitcore.cc", "xboa/core/cpplib/Hitcore.hh", "xboa/core/pylib/PyHitcore.cc: get,set", "xboa/hit/_hit.py: get,set"]}
{"id": "C06", "title": "Global weight is shared by track, local weight is private", "statement": "Two hits read the same global_weight whenever they have the same (spill, event_number, particle_number); setting global_weight on one hit changes the global_weight of exactly the hits with the same three numbers and of no other; weight = local_weight*global_weight always; clear_global_weights resets every hit to the context default.", "quantifier": "all collections of hits, all contexts, all histories of get/set", "why_tests_cant": "sharing is a relation between all pairs of hits over all histories", "anchors": ["xboa/core/cpplib/Hitcore.hh: global_weight,set_global_weight,total_weight", "xboa/hit/_hit.py"]}
{"id": "C07", "title": "Hit weights and weight context accessors agree on the track id", "statement": "Setting hit['global_weight']=w makes the current context's get_weight(spill, event, particle) return w. (Expected from the documentation of both; the code builds the id with event and particle swapped.)", "quantifier": "all hits and contexts", "why_tests_cant": "tests with event==particle cannot see it; the claim ranges over all ids", "anchors": ["xboa/core/cpplib/Hitcore.hh: set_global_weight", "xboa/core/cpplib/WeightContext.hh: HitId", "xboa/core/pylib/PyWeightContext.cc: setWeight,getWeight"]}
{"id": "C08", "title": "Copying a hit reproduces it", "statement": "new_from_dict(dict_from_hit(h)), deepcopy(h) and unpickling a pickled h give a hit with every stored variable equal to that of h (weight included when the track's own weight is not disturbed), and the original hit's stored fields are unchanged.", "quantifier": "all hits and all weight contexts", "why_tests_cant": "the order in which variables are restored matters only for particular ids/weights", "anchors": ["xboa/hit/_hit.py: new_from_dict, dict_from_hit, __deepcopy__, __getstate__, __setstate__"]}
{"id": "C09", "title": "Copying a hit leaves other hits alone", "statement": "deepcopy of a hit changes no weight of any other hit. (Expected; the code restores global_weight before spill/event/particle, so it writes the weight of the track numbered 0,0,0.)", "quantifier": "all hits, contexts", "why_tests_cant": "only visible for a third hit whose ids are all zero", "anchors": ["xboa/hit/_hit.py: new_from_dict", "xboa/core/cpplib/Hitcore.cc: set_names", "xboa/bunch/_bunch.py: new_from_hits"]}
{"id": "C10", "title": "Mass shell condition is established", "statement": "mass_shell_condition(v) for v in energy, px, py, pz, p leaves a hit with E^2 = p^2 + m^2 whenever it returns True (for p: whenever E^2>=m^2); when it returns False the variable is 0 and the required square was not above tolerance; no other variable changes; repeating it changes nothing.", "quantifier": "all hits with real coordinates, all variables", "why_tests_cant": "ranges over all real momenta and energies", "anchors": ["xboa/hit/_hit.py: mass_shell_condition, set_p"]}
{"id": "C11", "title": "Sign of momentum across the mass shell condition", "statement": "mass_shell_condition('pz') never returns a negative pz, whatever the direction of travel before; so the comment 'get direction right' does not hold: a backward going on-shell hit is reversed.", "quantifier": "all hits", "why_tests_cant": "direction must be preserved for every input sign", "anchors": ["xboa/hit/_hit.py: mass_shell_condition"]}
{"id": "C12", "title": "Derived variables are consistent", "statement": "Setting p, x', y', t', ct or kinetic_energy and reading the same derived variable back returns the value set (for non-degenerate hits); x'/y' keep pz, p keeps the momentum direction, and unrelated variables are unchanged; documented error branches raise without setting.", "quantifier": "all hits and values", "why_tests_cant": "real valued inputs; sign and degenerate branches", "anchors": ["xboa/hit/_hit.py: set_p,set_xP,set_yP,set_tP,set_ct,set_ek and getters"]}
{"id": "C13", "title": "Translations form a group action", "statement": "translate(d1) then translate(d2) equals translate(d1+d2); translate(d) then translate(-d) restores the hit; variables not in d are unchanged; bunch.translate does this to every hit.", "quantifier": "all hits, all translation dicts over stored double variables", "why_tests_cant": "all dicts and all hits", "anchors": ["xboa/hit/_hit.py: translate", "xboa/bunch/_bunch.py: translate"]}
{"id": "C14", "title": "Abelian transformation computes R(V-O)+T+O", "statement": "After abelian_transformation the listed variables hold exactly R(V-O)+T+O with absent origin/translation entries taken as 0, unlisted variables are unchanged; the identity matrix with no translation is the identity; two successive transformations about the same origin compose as matrices; an invertible matrix can be undone.", "quantifier": "all hits, dimension n, matrices, translations, origins", "why_tests_cant": "any dimension and any real matrix", "anchors": ["xboa/hit/_hit.py: abelian_transformation", "xboa/bunch/_bunch.py: abelian_transformation"]}
{"id": "C15", "title": "Bunch hits and statistics core stay in step", "statement": "After any sequence of append, b[i]=hit with non-negative indices and conditional_remove, the statistics core holds the same hits in the same order as b.hits(), so moments are computed over exactly the hits the user sees; out of range operations raise and change nothing. (The same for del b[i] is refuted: it always raises, after the hit has left the list but not the statistics core.)", "quantifier": "all operation histories", "why_tests_cant": "invariant over histories", "anchors": ["xboa/bunch/_bunch.py: append,__setitem__,__delitem__,conditional_remove", "xboa/core/cpplib/Bunchcore.cc: set_item,del_item", "xboa/core/utils/TypeConversions-inl.hh"]}
{"id": "C16", "title": "Negative indices keep hits and statistics core in step", "statement": "The same for negative Python indices. (Expected: the core documents 'index from the end'; the code maps -1 to 0, -2 to 1.) b[i]=hit with -n<=i<0 replaces item n+i of the list and item -i-1 of the statistics core, so the two agree afterwards exactly when i denotes the middle item.", "quantifier": "all histories", "why_tests_cant": "history/alias property", "anchors": ["xboa/core/utils/TypeConversions-inl.hh: PyCppIndexConverter::convert", "xboa/core/pylib/PyBunchcore.cc"]}
{"id": "C17", "title": "split partitions the bunch", "statement": "bunch.split(v) gives sub-bunches whose keys are exactly the integer values of v that occur; each sub-bunch contains exactly the hits with that value in original order, the total number of hits is preserved and the hits are the same objects; the list version is in strictly increasing key order.", "quantifier": "all bunches, all indexing variables", "why_tests_cant": "any number of hits and values", "anchors": ["xboa/bunch/_bunch.py: split,new_list_from_read_builtin"]}
{"id": "C18", "title": "cut sets exactly the selected weights to zero", "statement": "cut({v:c}, cmp) sets the local (or global) weight to 0 for exactly the hits with cmp(v,c) true, leaves the others unchanged (for a global cut: leaves every track with no selected hit unchanged), removes no hit and changes no coordinate; both code paths (C++ and Python) give the same result, provided Hit.set_weight_context was never called. (After a switch of the weight context a global cut on a stored float does not reach the weight the user reads; a comparator that raises leaves the earlier hits cut. Both are refuted expectations.)", "quantifier": "all bunches, cut values, total comparators", "why_tests_cant": "all data and both code paths", "anchors": ["xboa/bunch/_bunch.py: cut,_cut", "xboa/core/cpplib/Bunchcore.cc: cut_double"]}
{"id": "C19", "title": "conditional_remove keeps exactly the unselected hits in order", "statement": "conditional_remove keeps, in order, exactly the hits for which no comparator fires, and cutting n sigma selects the same hits as cut with n sigma. (The second half is refuted: the square root is taken twice.)", "quantifier": "all bunches, dicts, comparators", "why_tests_cant": "all data", "anchors": ["xboa/bunch/_bunch.py: conditional_remove, standard_deviation, cut"]}
{"id": "C20", "title": "transmission_cut keeps exactly the transmitted tracks", "statement": "With integer test variables (default spill/event/particle) a hit keeps its weight iff some hit of test_bunch has equal test variables, otherwise it becomes 0; independent of the order of test_bunch; idempotent. For real variables the tolerance is one sided.", "quantifier": "all pairs of bunches of any size", "why_tests_cant": "binary search over any sorted data", "anchors": ["xboa/bunch/_bunch.py: transmission_cut"]}
{"id": "C21", "title": "Moments: invariances", "statement": "For bunches of non-zero total weight: mean is the weighted average; mean of a translated bunch is translated; central moments are translation invariant; scaling a coordinate scales the moment; moments do not depend on hit order or on hits of zero weight; scaling all weights by a non-zero constant changes nothing.", "quantifier": "all bunches, weights, variable lists of any length", "why_tests_cant": "all sizes and orders", "anchors": ["xboa/bunch/_bunch.py: moment, mean, bunch_weight", "xboa/core/cpplib/Bunchcore.cc: get_moment"]}
{"id": "C22", "title": "Moments: C++ and Python paths agree", "statement": "The statistics core and the Python fallback loop return the same moment for every bunch, variable list and fully specified mean dict; zero weight raises ZeroDivisionError; when a mean is missing they do not agree (core assumes 0, documentation says bunch mean, fallback raises).", "quantifier": "all bunches, variable lists, mean dicts", "why_tests_cant": "two implementations compared on all inputs", "anchors": ["xboa/bunch/_bunch.py: moment", "xboa/core/cpplib/Bunchcore.cc: get_moment"]}
{"id": "C23", "title": "Covariance matrices are symmetric positive semi-definite", "statement": "covariance_matrix is symmetric, has entries equal to moment of each pair, is positive semi-definite for non-negative weights, hence variances are non-negative, |cov|^2 <= var*var and standard deviation and 2D emittance are real numbers.", "quantifier": "all bunches with non-negative weights and positive total, any number of variables", "why_tests_cant": "all sizes, all data", "anchors": ["xboa/bunch/_bunch.py: covariance_matrix, standard_deviation, get_emittance", "xboa/core/cpplib/Bunchcore.cc: covariance_matrix"]}
{"id": "C24", "title": "Moment tensor enumerates each power exactly once", "statement": "index_by_power(max,n) lists every n-tuple of non-negative powers with sum <= max exactly once with the zero tuple first, and nothing else; moment_tensor gives at each position the raw weighted moment of that power.", "quantifier": "all max, n, bunches", "why_tests_cant": "combinatorial enumeration for every size", "anchors": ["xboa/core/cpplib/Bunchcore.cc: get_index_by_power, get_index_by_power_recurse, get_moment_tensor"]}
{"id": "C25", "title": "Period transformation folds into one period", "statement": "period_transformation(offset,f>0) leaves the variable in [-1/(2f), 1/(2f)), differing from old-offset by an integer number of periods, other variables unchanged; applying it again with offset 0 changes nothing.", "quantifier": "all hits, offsets, positive frequencies", "why_tests_cant": "all reals incl. boundaries", "anchors": ["xboa/bunch/_bunch.py: period_transformation"]}
{"id": "C26", "title": "Particle id tables", "statement": "icool to pdg conversion is a bijection with the inverse table (so writing and reading restores the pid); mars conversion restores pdg pids on every pid written; charges of particle and antiparticle are opposite and masses are found for every convertible pid, where the tables are complete; exceptions are listed.", "quantifier": "all pids in the tables", "why_tests_cant": "relation between several hand written tables", "anchors": ["xboa/common/_common.py: pid tables", "xboa/hit/_hit.py: write_builtin_formatted"]}
{"id": "C27", "title": "Writing then reading a text format restores the hits", "statement": "For each builtin text format, reading a line written for a hit restores every variable in the format (pid included), sets mass from pid, energy from the mass shell, charge from pid, and leaves others at default; number of columns always matches; the hit written is unchanged afterwards.", "quantifier": "all hits with convertible pid, exact arithmetic", "why_tests_cant": "all hits and formats", "anchors": ["xboa/hit/_hit.py: write_builtin_formatted,__write_formatted", "xboa/hit/factory/_builtin_hit_factory.py", "xboa/hit/factory/_line_factory_base.py"]}
{"id": "C28", "title": "Writing a list is a stable sort by station", "statement": "write_list_builtin_formatted writes the header and then one line per writable hit in stable order of station; unwritable hits are skipped and the rest are still written; the number of header lines equals the number the reader skips (for a comment without newline).", "quantifier": "all hit lists", "why_tests_cant": "all lists, error positions", "anchors": ["xboa/hit/_hit.py: write_list_builtin_formatted, file_header", "xboa/bunch/_bunch.py: setup_file"]}
{"id": "C29", "title": "Reading stops at the limit and skips only bad lines", "statement": "new_from_read_builtin / new_from_read_user return the first n accepted hits in file order (all if n<0), skipping malformed lines and hits failing the test function, never reading further than needed, and always terminate.", "quantifier": "all files, limits, test functions", "why_tests_cant": "all files and error positions", "anchors": ["xboa/bunch/_bunch.py: new_from_read_builtin,new_from_read_user", "xboa/hit/factory/_line_factory_base.py"]}
{"id": "C30", "title": "Histogram conserves weight", "statement": "Each entry falls in at most one bin, namely the one whose edges bracket it (lower edge inclusive), each bin content is the total weight of its entries, and total content equals total weight of in-range entries; 1D equals 2D with one y bin.", "quantifier": "all data, sorted edges, weights", "why_tests_cant": "all data and edges, boundary values", "anchors": ["xboa/common/_common.py: histogram", "xboa/bunch/_bunch.py: histogram_var_bins"]}
{"id": "C31", "title": "Bin edges and automatic range", "statement": "get_bin_edges returns n+1 strictly increasing equally spaced edges from xmin to xmax; automatic range covers all data; min_max returns min<max and brackets all data of significant weight; the topmost datum of an automatic range histogram is lost (right edge exclusive).", "quantifier": "all data lists, n>=1", "why_tests_cant": "all reals", "anchors": ["xboa/common/_common.py: get_bin_edges, min_max"]}
{"id": "C32", "title": "multisort permutes rows consistently", "statement": "multisort returns columns such that the first is sorted and the rows are a stable permutation of the input rows.", "quantifier": "all rectangular tables", "why_tests_cant": "all tables", "anchors": ["xboa/common/_common.py: multisort", "xboa/bunch/_bunch.py: list_get"]}
{"id": "C33", "title": "Automatic number of bins", "statement": "n_bins keeps user values, chooses at least 1 bin for every dimension in range and 0 for those out of range; Bunch.histogram with two axes and automatic y bins divides by zero (refuted expectation).", "quantifier": "all numbers of points", "why_tests_cant": "call with shifted argument only fails in 2D", "anchors": ["xboa/common/_common.py: n_bins", "xboa/bunch/_bunch.py: histogram"]}
{"id": "C34", "title": "Grid of points", "statement": "make_grid(d,n) returns n^d pairwise distinct points (n>=2), every coordinate in [-1,1], containing every combination of grid coordinates exactly once.", "quantifier": "all d and n", "why_tests_cant": "all dimensions", "anchors": ["xboa/common/_common.py: make_grid"]}
{"id": "C35", "title": "Shell points lie on the ellipse", "statement": "normalise_vector(v,M) returns a multiple of v with v^T M v = 1 whenever v^T M v>0; make_shell returns only points on the ellipse; the documented number of points is returned for n>=2 and not for n=1.", "quantifier": "all dimensions, positive definite matrices", "why_tests_cant": "all matrices and sizes", "anchors": ["xboa/common/_common.py: make_shell, normalise_vector"]}
{"id": "C36", "title": "process_list keeps input order for every schedule", "statement": "process_list(f,args,n) returns one entry per argument in argument order, f's value or the exception raised, whatever order the workers finish in.", "quantifier": "all argument lists and all completion orders", "why_tests_cant": "all interleavings", "anchors": ["xboa/common/_common.py: process_list,__function_with_queue"]}
{"id": "C37", "title": "Twiss ellipse construction", "statement": "build_ellipse_2d gives a symmetric positive definite matrix with determinant emittance^2 (geometric) or (emittance*mass)^2, from which beta, alpha, emittance are recovered; non-positive beta or emittance is rejected with ValueError (beta=0 raises ZeroDivisionError instead).", "quantifier": "all real Twiss parameters", "why_tests_cant": "all reals", "anchors": ["xboa/bunch/_bunch.py: build_ellipse_2d"]}
{"id": "C38", "title": "Penn ellipse", "statement": "build_penn_ellipse gives a symmetric matrix, positive definite for valid inputs with q=+-1, with determinant (emittance*mass)^4 and 4D emittance equal to the requested; invalid parameters rejected.", "quantifier": "all real parameters", "why_tests_cant": "all reals", "anchors": ["xboa/bunch/_bunch.py: build_penn_ellipse"]}
{"id": "C39", "title": "Covariance list conventions", "statement": "axis_list_to_covariance_list returns position/momentum pairs in order, twice as long; the picker of a stored covariance matrix returns exactly the requested sub-matrix in the requested order; unknown axes are rejected.", "quantifier": "all axis lists", "why_tests_cant": "any list of axes", "anchors": ["xboa/bunch/_bunch.py: axis_list_to_covariance_list, momentum_variable, __cov_mat_picker"]}
{"id": "C40", "title": "Grouping hits for MAUS output", "statement": "Splitting a hit list by an attribute and rebuilding gives groups with equal attribute, concatenating to a permutation of the input with order kept in each group; the tree contains every hit exactly once or an IOError is raised.", "quantifier": "all hit lists and tree paths", "why_tests_cant": "recursive structure of any depth", "anchors": ["xboa/hit/_hit.py: __split_list_by_equality, __get_maus_tree_recursive"]}
{"id": "C41", "title": "Bounding ellipse cut", "statement": "cut_on_bound returns exactly the points with (x-m)^T V^-1 (x-m) <= 1 in order with their original indices. The boundary points of the constructor are on the ellipse and survive the cut; invalid arguments are rejected.", "quantifier": "all point lists, ellipses and means, in every dimension", "why_tests_cant": "delete-while-iterating loop on all inputs", "anchors": ["xboa/bunch/weighting/_bounding_ellipse.py: cut_on_bound"]}
{"id": "C42", "title": "Multipole weighting reaches its target moments", "statement": "After apply_weights the bunch has the requested moments. (Holds for a single target moment; refuted for several: the matrix is transposed.) The weights are multiplied by a polynomial normalised to mean 1; for unit local weights the total equals the number of hits; invalid target lists are rejected, but non adjacent duplicates are accepted.", "quantifier": "all bunches and targets", "why_tests_cant": "identity over all data", "anchors": ["xboa/bunch/weighting/_multipole_weighting.py"]}
{"id": "C43", "title": "Voronoi weighting", "statement": "apply_weights gives weight pdf*content to every hit inside the bound and 0 to every other hit, and changes no other weight, coordinate or hit. (Python 2 only: with Python 3 it always raises; hits sharing a global weight all get 0 if one of them is outside; hits at the edge get 0.)", "quantifier": "all bunches, weightings, bounds and tesselations", "why_tests_cant": "index bookkeeping on all inputs", "anchors": ["xboa/bunch/weighting/_voronoi_weighting.py: apply_weights"]}
{"id": "C44", "title": "Matrix tracking", "statement": "track_one returns the input hit first followed by one hit per matrix with (x,px,y,py,t,energy) = M(u-v_in)+v_i, on mass shell with pz>=0 when possible; identity matrices return the same coordinates; input unchanged; track_many is element-wise; bad shapes are rejected.", "quantifier": "all hits and matrix lists", "why_tests_cant": "all reals, any number of matrices", "anchors": ["xboa/tracking/_matrix_tracking.py", "xboa/tracking/_tracking_base.py"]}
{"id": "C45", "title": "Multi-process tracking distributes and collects every hit", "statement": "The chunks handed to the workers concatenate to the input, differ in size by at most one, and the returned list equals tracking all hits in order once all jobs finish, and is the concatenation over finished jobs before that, for any finishing order.", "quantifier": "all hit lists, numbers of processes, schedules", "why_tests_cant": "all schedules and sizes", "anchors": ["xboa/tracking/_multitrack.py"]}
{"id": "C46", "title": "Tracking process lifecycle", "statement": "get_return_value raises RuntimeError until the process has finished and written output and afterwards returns exactly what was written; a stale file from an earlier run is never returned after new_out_dir.", "quantifier": "all interleavings of calls and process events, crash points", "why_tests_cant": "histories and crash points", "anchors": ["xboa/tracking/tracking_process/_tracking_process.py", "xboa/tracking/tracking_process/_this_node_process.py"]}
{"id": "C47", "title": "Uphill-downhill peaks are exactly the strict local maxima", "statement": "find_peaks returns, in increasing order without repetition, exactly the interior indices whose value exceeds both neighbours.", "quantifier": "all data lists", "why_tests_cant": "any length and values", "anchors": ["xboa/algorithms/peak_finder/_uphill_downhill_peak_finder.py"]}
{"id": "C48", "title": "Window peaks are window maxima", "statement": "WindowPeakFinder.find_peaks returns distinct indices, each the first maximum of some window and not on an inner window edge; with threshold<1 it returns all such.", "quantifier": "all data, window sizes, steps", "why_tests_cant": "any length and values", "anchors": ["xboa/algorithms/peak_finder/_window_peak_finder.py"]}
{"id": "C49", "title": "Gaussian smoothing", "statement": "With boundary adjustment each smoothed value is between the minimum and maximum of the data in range and constants are preserved; output length equals input length; smoothing is linear.", "quantifier": "all signals, ranges, sigmas", "why_tests_cant": "all reals and positions", "anchors": ["xboa/algorithms/smoothing/_gaussian_smoothing.py"]}
{"id": "C50", "title": "Cut smoothing keeps rows aligned", "statement": "All columns lose exactly the same rows, those whose target value is further than cut_range from its window mean, order kept; windows cover every row; unequal columns are rejected.", "quantifier": "all tables and steps (with integer division as intended; as written Python 3 raises TypeError)", "why_tests_cant": "delete-while-iterating on all tables", "anchors": ["xboa/algorithms/smoothing/_cut_smoothing.py"]}
{"id": "C51", "title": "Closed orbit scan visits every grid point", "statement": "scan_generator visits every grid point of the cartesian product once. (Refuted: it stops as soon as a coordinate reaches its end.)", "quantifier": "all scan ranges", "why_tests_cant": "odometer over any number of coordinates", "anchors": ["xboa/algorithms/closed_orbit/_ellipse_closed_orbit_finder.py: scan_generator"]}
{"id": "C52", "title": "Noise estimates are real", "statement": "get_sigma_noise returns a non-negative number and mean/sigma are permutation invariant.", "quantifier": "all lists of points", "why_tests_cant": "all data", "anchors": ["xboa/algorithms/closed_orbit/_ellipse_closed_orbit_finder.py: get_mean_noise, get_sigma_noise"]}
{"id": "C53", "title": "Decoupled transfer matrix optics", "statement": "The parametrisation returned for each decoupled plane has beta>0 and beta*gamma-alpha^2=1, and reproduces the 2x2 block cos(mu)+J sin(mu) up to the sign of mu; the matrix is similar, by a real matrix, to these blocks. The ellipse returned for positive emittances is symmetric, positive definite and carried to itself by the transfer matrix. (Refuted: the sign of the phase, M^T V M = V, the emittance of the ellipse, uncoupled lattices of two planes, Python 3.)", "quantifier": "all stable transfer matrices of any even size with finite parameters; all emittances", "why_tests_cant": "all matrices of all sizes", "anchors": ["xboa/algorithms/decoupled_transfer_matrix.py"]}
{"id": "C54", "title": "Tracker station numbers are unique", "statement": "Distinct (tracker, station, plane) get distinct hit stations. (Refuted at accepted boundary values.)", "quantifier": "all accepted triples", "why_tests_cant": "pairs of triples", "anchors": ["xboa/hit/factory/_maus_root_recon_hit_factory.py"]}
{"id": "C55", "title": "Hit comparison", "statement": "hit equality is reflexive, symmetric, independent of object identity, but not transitive; inequality is its negation; equality of bunches compares all hits in order.", "quantifier": "all pairs of hits", "why_tests_cant": "relation over all hits", "anchors": ["xboa/hit/_hit.py: __eq__,__ne__", "xboa/bunch/_bunch.py: __eq__, hit_equality"]}
{"id": "C56", "title": "Phase advance list", "statement": "get_dphi_list values lie in [0,1) and there is one per consecutive pair; a second call does not accumulate. (Second half refuted.)", "quantifier": "all point lists, histories of calls", "why_tests_cant": "history", "anchors": ["xboa/algorithms/tune/_dphi_tune.py"]}
{"id": "C57", "title": "Hit shell bunch", "statement": "new_hit_shell gives hits numbered 0..n-1, each on the requested ellipse offset from the defaults and on mass shell.", "quantifier": "all ellipses and n", "why_tests_cant": "all dimensions", "anchors": ["xboa/bunch/_bunch.py: new_hit_shell"]}
{"id": "C58", "title": "Angular momentum", "statement": "Kinetic angular momentum is the weighted mean of x*py-y*px about the axis, is additive and invariant under rotation of the bunch about the axis; canonical adds c*bz*(<x2>+<y2>)/2.", "quantifier": "all bunches", "why_tests_cant": "all data", "anchors": ["xboa/bunch/_bunch.py: get_kinetic_angular_momentum, get_canonical_angular_momentum"]}
{"id": "C59", "title": "Amplitude", "statement": "Amplitude is non-negative for positive definite covariance and the weighted mean of amplitude over the bunch is 2n times emittance.", "quantifier": "all bunches", "why_tests_cant": "all data", "anchors": ["xboa/bunch/_bunch.py: get_amplitude"]}
{"id": "C60", "title": "Iterative ellipse fit", "statement": "fit_ellipse ends within the iteration limit on every input and never raises if every point has a weight. The mean and covariance it returns are the weighted ones of a choice of points reached by starting from all points and repeatedly keeping those inside the ellipse of the choice before; it stops when determinants agree to 1e-9, the limit is reached or the covariance is singular. Volume preserving affine maps commute with it. (Refuted: small beams are never cut; an empty cut returns zeros; the documented cut holds in two dimensions only.)", "quantifier": "all points, weights, cuts, limits and dimensions", "why_tests_cant": "iteration over all data", "anchors": ["xboa/common/_common.py: fit_ellipse"]}
{"id": "C61", "title": "Derived variables", "statement": "hit.get of a derived variable is the documented function of the stored ones: (r, phi) and (pt, pphi) are polar coordinates with r >= 0 and phi in (-pi, pi], p^2 = pt^2 + pz^2, slopes are quotients by pz and raise ZeroDivisionError exactly when pz = 0, ct = 299.792458 t.", "quantifier": "all hits", "why_tests_cant": "identities over all real values, including the quadrants of atan2", "anchors": ["xboa/hit/_hit.py: get, get_p, get_r, get_phi, get_pt, get_pphi, get_xP, get_yP, get_tP, get_rP, get_spin, get_ct, get_ek, get_l_kin"]}
{"id": "C62", "title": "Stored covariance matrix", "statement": "After set_covariance_matrix() the covariances, means and emittances read the same as before and stay frozen when hits change; set_covariance_matrix(False) returns to calculation. (Refuted: calling set_covariance_matrix() again recalculates; an origin passed to moment is honoured.)", "quantifier": "all bunches and histories of changes", "why_tests_cant": "history of changes between storing and reading", "anchors": ["xboa/bunch/_bunch.py: set_covariance_matrix, moment, mean, get_emittance"]}
{"id": "C63", "title": "Twiss parameters", "statement": "For one axis the measured beta, gamma, alpha fulfil beta*gamma-alpha^2=1 and build_ellipse_2d of the measured parameters is the measured covariance matrix. (Refuted with the geometric argument different from the class variable.)", "quantifier": "all bunches with non-degenerate covariance", "why_tests_cant": "all data", "anchors": ["xboa/bunch/_bunch.py: get_beta, get_gamma, get_alpha, get_emittance, build_ellipse_2d"]}
{"id": "C64", "title": "Linear maps of bunches", "statement": "abelian_transformation maps covariances to M V M^T and means to M(mean-origin)+translation+origin; the emittance of any number of axes is multiplied by the n-th root of |det M|, so it is invariant for determinant 1 or -1. (Refuted: the documented default origin, the bunch mean.)", "quantifier": "all bunches, dimensions and matrices", "why_tests_cant": "all dimensions", "anchors": ["xboa/bunch/_bunch.py: abelian_transformation, get_emittance, covariance_matrix"]}
{"id": "C65", "title": "Clearing weights and selecting hits", "statement": "clear_local_weights sets the local weight of exactly the hits of the bunch to 1 and changes no other variable of any hit; after clear_weights the bunch weight is the number of hits times the default weight; get_hits returns, in order, exactly the hits whose variable compares as asked and raises if a comparison raises.", "quantifier": "all bunches, programs that built them, variables and comparators", "why_tests_cant": "frame conditions over all hits and histories", "anchors": ["xboa/bunch/_bunch.py: clear_local_weights, clear_weights, get_hits, bunch_weight"]}
{"id": "C66", "title": "MAUS JSON round trip", "statement": "Virtual hits written in MAUS JSON format and read back come back once each with position, momentum, fields, time, mass, charge, station, pid and particle number unchanged; spill and event number become the rank of the event and of the particle; primaries on their mass shell come back too. (Refuted: the event number is not kept; under Python 3 any file with a hit raises AttributeError.)", "quantifier": "all lists of hits", "why_tests_cant": "grouping of any list at any depth", "anchors": ["xboa/hit/_hit.py: write_list_builtin_formatted, get_maus_tree, get_maus_dict", "xboa/hit/factory/_maus_json_hit_factory.py"]}
{"id": "C67", "title": "Reading MAUS JSON files", "statement": "Reading one type from a file gives the first n hits of that type of all spills in order and ignores other documents. (Refuted: reading several types gives all of them; only the first type is ever read. The limit applies to every file of a wildcard. A primary with energy below its mass silently ends the reading.)", "quantifier": "all files of spills and other documents, all limits", "why_tests_cant": "files of any length, histories of a shared file handle", "anchors": ["xboa/bunch/_bunch.py: read_maus_json_file, new_from_read_builtin", "xboa/hit/factory/_maus_json_hit_factory.py: make_hit, new_spill"]}
{"id": "C68", "title": "MAUS ROOT primaries", "statement": "A primary read from a ROOT file equals the same primary read from JSON. (Refuted: the charge is always 0; everything else agrees.)", "quantifier": "all primaries on their mass shell", "why_tests_cant": "all particles and momenta", "anchors": ["xboa/hit/factory/_maus_root_hit_factory.py: _read_primaries"]}
{"id": "C69", "title": "Dispersion", "statement": "The dispersion of q is cov(q,E)<E>/var(E): the slope of the best straight line of q against the relative energy deviation; it is exact for particles on a line, and equal energies raise. get_dispersion_rsquared is the documented (<r2 E>-<r2><E>)<E>/var(E) for centred bunches. (Refuted for bunches off the axis.)", "quantifier": "all bunches and variables", "why_tests_cant": "all data; minimum over all lines", "anchors": ["xboa/bunch/_bunch.py: get_dispersion, get_dispersion_prime, get_dispersion_rsquared"]}
{"id": "C70", "title": "Transforming a beam to a target shape", "statement": "Bunch.transform_to makes the covariance matrix of the chosen variables a positive multiple of the target, the multiple being the one that keeps the determinant, hence the emittance, when the origin is the mean of the beam. For any other origin the second moments about the moved origin are a multiple of the target. (Refuted: with an origin other than the mean, and two variables or more, the covariance is never a multiple of the target.)", "quantifier": "all bunches with a definite covariance, targets, translations and origins", "why_tests_cant": "needs an argument about eigenvectors of every symmetric matrix", "anchors": ["xboa/bunch/_bunch.py: transform_to, abelian_transformation"]}
{"id": "C71", "title": "Content of a Voronoi tile", "statement": "The content of a simplex computed from distances is its volume |det|/d! in every dimension; the content of a tile is the sum over the simplices it is divided into, never negative, and 0 for tiles that reach infinity; contents come in the order of the points. (Python 2 only.)", "quantifier": "all simplices in every dimension, all tesselations", "why_tests_cant": "identity of determinants for every dimension", "anchors": ["xboa/bunch/weighting/_hull_content.py"]}
{"id": "C72", "title": "Newton-Raphson root finding", "statement": "nd_newton_raphson1 evaluates the function in at most max_iteration rounds; each round steps to the point where the function would vanish if it had the slopes seen around the last point; the value returned has been evaluated; a round that starts within the tolerances is the last. The root of an affine function with an invertible matrix is found exactly from any start. (Refuted: the value returned need not be within the tolerances; the start is returned silently if the Jacobian is singular; limits that do not start from 0 are not respected.)", "quantifier": "all functions, dimensions, starting points, deltas and numbers of iterations", "why_tests_cant": "needs an argument for every function and every dimension", "anchors": ["xboa/common/_common.py: nd_newton_raphson1, nd_newton_raphson2"]}
{"id": "C73", "title": "Closed orbit finder", "statement": "find_closed_orbit_generator collects the points of an iteration by tracking from the last hit found until there are enough, in order and without more tracking than needed, and the collection always ends. The centre and ellipse of an iteration are mean and covariance of the points kept; noise is the normalised distance, never negative, and its mean is the dimension times the mean radius squared when all points are kept. Each iteration starts from the seed with the search variables set to the centre found before; at most max_iterations are made, and it goes on only while the mean noise is not below its standard deviation. check_closed_orbit gives the first such iteration. (Refuted: a seed on the closed orbit, a lost particle, max_iterations=None, convergence and failed fits do not end as documented.)", "quantifier": "all trackings, hits, seeds, variables, numbers of points and iterations", "why_tests_cant": "the tracking is arbitrary; needs induction over passes and an identity for every dimension", "anchors": ["xboa/algorithms/closed_orbit/_ellipse_closed_orbit_finder.py: EllipseClosedOrbitFinder, EllipseClosedOrbitFinderIteration"]}
{"id": "C74", "title": "Tune from a Fourier transform", "statement": "FFTTuneFinder.get_tune without refinement gives j/(N+1) for the first frequency index j at which the transform has the largest value found at a peak other than index 0; no such peak is ValueError. Refinement around a peak with a single hill always ends, stays between the neighbours, never gets lower, ends next to a neighbour closer than the tolerance, and excludes higher points outside its neighbours; if the hill is symmetric the tune is within the tolerance of its top. Even lists lose their last element. run_tracking keeps the chosen hits in order. (Refuted: a pure oscillation with q periods in N samples gives q/(N+1), not q/N; old peaks are used for new data; a valley is reported as a peak; a peak that is not symmetric is not refined.)", "quantifier": "all samples, peak finders, tolerances and grids", "why_tests_cant": "needs sums of cosines for every N and a termination argument for every transform", "anchors": ["xboa/algorithms/tune/_fft_tune.py: FFTTuneFinder"]}
{"id": "C75", "title": "Tracking with MAUS", "statement": "Over any history of calls, the particles fired by a MAUSTracking object carry the consecutive seeds seed, seed+1, ..., whether calls succeed or raise. A call that succeeds returns one list per event: first the primary with its own coordinates and energy, then the crossings on their mass shell, with mass and charge of the particle tables, all with one spill number that is larger than that of every earlier call. A call that raises changes neither the spill number nor the last result. A copied or unpickled object continues exactly where the original stands. (Refuted: copies do not repeat the seeds of one another; an object given datacards runs with them when another object has been given other cards. One particle missing from the tables, such as an anti-kaon, loses all results of the call.)", "quantifier": "all programs with any number of trackers, calls and copies, all simulations, hits and cards", "why_tests_cant": "histories of any length, an arbitrary simulation, several objects sharing one MAUS", "anchors": ["xboa/tracking/_maus_tracking.py: MAUSTracking"]}
{"id": "C76", "title": "Refining peaks with a quadratic fit", "statement": "RefinePeakFinder reports the estimated peaks in their order, some left out. Each is the top of the parabola fitted to the data within a radius of the estimate, lies no further than this radius from it and inside the data. For a single estimate the radius is the seed, doubled as long as the quality of the fit is below 1 and it stays below max_delta and the number of data. The quality is (s(residuals)/s(data near the peak) - 1) sqrt(n). If the data lie on a parabola around the estimate and its top is within the seed, the top is found exactly. The covariances are those of the fit parameters propagated with the derivatives of the top, symmetric and nonnegative if those are. find_peaks gives the integer parts. Estimates whose fits end well are treated independently. (Refuted: independence in general, reported peaks are maxima, the data compared with are always those around the peak; in Python 3 every nonempty list of estimates raises.)", "quantifier": "all data, seeds, maximal radii and lists of estimates, all least squares fits", "why_tests_cant": "real-valued data of any length, an arbitrary fit, lists of estimates with state carried from one to the next", "anchors": ["xboa/algorithms/peak_finder/_refine_peak_finder.py: RefinePeakFinder"]}
{"id": "C77", "title": "Copying and comparing bunches", "statement": "Bunch.new_from_hits and Bunch.deepcopy make new hits, one for each hit given, in order, with the same stored variables, seen by the statistics of the new bunch; no stored variable of an earlier hit changes. Hits whose spill, event and particle number are not all zero keep all their variables including the weights, in the copy and in the original; hits with all three zero keep theirs if all hits copied are such, and otherwise end with the global weight of the last hit copied that is not. A deep copy equals the original. Without set covariances b == c means as many hits, pairwise equal within the tolerance, in order, and every mean set in b is set in c to nearly the same value. hit_equality compares the hits at the standard tolerance. (Refuted: copying changes no weight, == is symmetric, == compares the hits when covariances are set, hit_equality uses the tolerance given.)", "quantifier": "all programs making and changing hits, all lists of hits including repeated hits, all bunches, means and tolerances below 1", "why_tests_cant": "any number of hits, any history, aliasing of global weights between hits", "anchors": ["xboa/bunch/_bunch.py: Bunch.__deepcopy__, Bunch.__repr__, Bunch.new_from_hits, Bunch.__eq__, Bunch.hit_equality"]}
{"id": "C78", "title": "Queries of bunches by name", "statement": "Bunch.get with 'mean', 'moment', 'standard_deviation' and 'bunch_weight' gives the weighted average of the first variable listed, the average product of the deviations, the root of the average squared deviation of the first variable, and the sum of weights; with the Twiss names it gives parameters with beta gamma - alpha^2 = 1 whose ellipse is the covariance matrix; any name that get_variables does not list raises. list_get gives one list per quantity; all follow one order of the bunches that has each once, ascends in the first quantity and keeps the order given between equal values; it raises if a quantity raises or there are none. list_get_hit_variable gives the readings of the hits in order, divided by the unit of the variable, and agrees with get_hit_variable of each hit, amplitudes included; the amplitudes average to 2n times the emittance. With hits, success means that every variable had a known unit. (Refuted: get('mean') ignores the other variables; unknown units are always reported.)", "quantifier": "all bunches with weight, variables readable from the hits, lists of bunches, quantities and units", "why_tests_cant": "any number of bunches, hits and variables; order and ties depend on computed real values", "anchors": ["xboa/bunch/_bunch.py: Bunch.get, Bunch.get_mean, Bunch.list_get, Bunch.get_hit_variable, Bunch.list_get_hit_variable, Bunch.convert_string_to_axis_list", "xboa/common/_common.py: units, multisort"]}
{"id": "C79", "title": "User defined text formats and dictionaries of bunches in files", "statement": "hit_write_user writes one line per hit in order, holding the variables of the format in the units given; new_from_read_user with the same format and units, after a header of any length, gives the same hits in the same order: variables of the format are restored, mass and charge not in the file are those of the particle (particle 0 if the format has no pid), the rest is that of a new hit. If mass or charge of one hit can be found neither in the file nor in the tables, reading raises. hit_write_builtin and hit_write_builtin_from_dict write files from which all hits of the bunch, or of all bunches, are read by station, each restored, and change no hit. A column without a unit cannot be written. (Refuted: files with a separator that is not white space can be read back - they give no hits and no error; every variable of a hit can be a column - 'spill' and 'global_weight' raise; formats that can be read can be written; units of integers are consistent; the comment given with a dictionary is in the file.)", "quantifier": "all hits and bunches of any program, all formats of stored variables in any order with repetition and unused columns, all units, headers, weights of the reading program and dictionaries", "why_tests_cant": "any number of hits and any list of columns; both directions must be inverse for every value", "anchors": ["xboa/bunch/_bunch.py: Bunch.hit_write_user, Bunch.new_from_read_user, Bunch.hit_write_builtin, Bunch.hit_write_builtin_from_dict", "xboa/hit/_hit.py: Hit.write_user_formatted, Hit.new_from_read_user", "xboa/hit/factory/_user_hit_factory.py: UserHitFactory"]}
{"id": "C80", "title": "Loading the bunches of files", "statement": "new_from_read_builtin gives a bunch of new hits, those of the lines of the files in order, and leaves the hits of the program as they were. new_dict_from_read_builtin gives one bunch for each value of the variable among the hits read, each with exactly the hits with this value in the order of the files; new_list_from_read_builtin gives the same bunches by increasing value. What hit_write_builtin_from_dict wrote is loaded by any other program, for any integer variable that the format has, as one bunch per value with the hits of this value restored; for stations of an icool_for009 file, in the order in which they were written. (Refuted: the bunches of stations are restored by the other formats - they give at most one bunch.)", "quantifier": "all programs that write and read, text formats, files, test functions, variables, dictionaries of bunches", "why_tests_cant": "any number of files, lines, bunches and values; both programs have arbitrary histories", "anchors": ["xboa/bunch/_bunch.py: Bunch.new_dict_from_read_builtin, Bunch.new_list_from_read_builtin, Bunch.new_from_read_builtin, Bunch.split, Bunch.hit_write_builtin_from_dict"]}
{"id": "C81", "title": "Reading MAUS ROOT files", "statement": "Bunch.read_maus_root_file returns, in the order of the file, a hit for every virtual hit, primary, step or tracker point of the types asked for: fields as recorded, spill number from the spill, event number from the position in the spill, energy from mass and momentum (virtual hits, steps), station from the index of the step (steps), time from the TOF counters (tracker points with times: first space points, else means of slab hits, else means of digits). The test is applied to every hit; the limit counts the hits of all types together. A step of an unknown particle raises KeyError.", "quantifier": "all lists of decoded spills, all lists of types, all tests, all limits", "why_tests_cant": "Number and order of the hits depend on nested loops over events, tracks, steps and spills, on buffered hits, on the interplay of test, limit and list of types and on the spill in which an exception is raised; test files have a few spills of one shape.", "anchors": ["xboa/bunch/_bunch.py: Bunch.read_maus_root_file, Bunch.new_from_read_builtin", "xboa/hit/factory/_maus_root_hit_factory.py: MausRootHitFactory", "xboa/hit/factory/_maus_root_recon_hit_factory.py: MausRootReconHitFactory"]}
{"id": "C82", "title": "Calling get_weight and set_weight; comparing weight contexts", "statement": "get_weight(spill, event, particle) returns the weight of that hit, for every split into positional and keyword arguments, both spellings and every order of the keywords; a call that returns was given C ints and known names only. set_weight(weight, spill, event, particle) by position sets the weight of that hit and of no other. set_weight with the hit named as for get_weight should do the same: it raises, or sets the weight of another hit. x == y holds exactly if a weight set through x is always seen through y.", "quantifier": "all contexts obtained by programs, all integers, all splits of the arguments, all orders and spellings of keywords; all programs with weight contexts", "why_tests_cant": "The argument parser matches a format of five or six units against five names; every split and order takes another path through it, and one mixed spelling writes to a wrong hit without an error.", "anchors": ["xboa/core/pylib/PyWeightContext.cc: getWeight, setWeight, richCompare"]}
{"id": "C83", "title": "Substituting words in a file", "statement": "common.substitute(in, out, words) writes the text of the input file with every word replaced, one word after the other in the order of the dictionary, from left to right and without overlap, and changes no other file. For words that begin with a mark found nowhere else, none the beginning of another, every word becomes its value and the order does not matter. A text without the words is copied. A missing input raises and changes nothing.", "quantifier": "all texts, all dictionaries, all orders of the dictionary, all file systems", "why_tests_cant": "Matches may overlap, cross lines, or be created by an earlier replacement; whether they do depends on text, words and order.", "anchors": ["xboa/common/_common.py: substitute"]}
{"id": "C84", "title": "Rounding errors of statistics", "statement": "In IEEE double precision, the weight of a bunch of n hits is the sum of the weights to within n units of 2^-52; a moment of k variables (k up to 6) about given floats is the exact weighted average of the product of the deviations to within 2n+2k+1 units of the average of its absolute value; means are exact to within 2n+3 units of the average absolute value; the covariance is exact to within 2n+5 units of the average absolute product of deviations plus the product of the errors of the means; a variance is never negative, and zero only if no hit deviates from the mean.", "quantifier": "all histories of hits and weights, all bunches of up to 2^50 hits, all lists of variables, all doubles of sane size (no overflow or underflow)", "why_tests_cant": "The error depends on the order and size of all terms; tests compare a few bunches with tolerances.", "anchors": ["xboa/bunch/_bunch.py: Bunch.bunch_weight, moment, mean", "xboa/core/Bunchcore.cc: Bunchcore::get_moment, Bunchcore::bunch_weight"]}
{"id": "C85", "title": "Tracking in a batch queue", "statement": "A process that submits its tracking to a batch queue (BSubProcess) knows the number of the job it has submitted; is_alive says True exactly while the queue prints PEND, RUN or WAIT for that job and raises if it prints no status; a process never has two jobs that can still run unless the queue suspends one; kill asks the queue for a job of this process only (and does not wait); join without timeout comes back only when no job can still run, and does come back if the job ends; get_return_value returns what a job of this process wrote, and no job can change it any more; a job forgotten by the queue leaves the process unusable.", "quantifier": "all programs of calls on any number of processes, all histories of the queue between any two accesses, all texts printed by bsub and bjobs", "why_tests_cant": "It depends on every interleaving of the queue with the calls, and on the texts a queue prints, which no test machine has.", "anchors": ["xboa/tracking/tracking_process/_bsub_process.py: BSubProcess", "xboa/tracking/tracking_process/_tracking_process.py: TrackingProcess.join, get_return_value, set_hit_list"]}
{"id": "C86", "title": "Plots with ROOT", "statement": "make_root_histogram fills one entry for each value with its weight (1 without weights), on axes from the smallest to the largest value of weight above 1e-6 (or as given), so that each bin holds the weight of the values in its range and the whole weight is kept if the bins below and above are counted; make_root_graph and make_root_multigraph have every point, ascending in x if sorted, strictly inside the axes; names of canvases and histograms are never used twice, over every history of calls; Bunch.root_histogram, root_scatter_graph and root_graph plot every hit (or bunch with both quantities) in the units asked for.", "quantifier": "all lists of values and weights, all limits and numbers of bins, all bunches with readable variables, all histories of calls", "why_tests_cant": "The content of a plot cannot be seen by a test without a ROOT installation, and depends on every value; uniqueness of names depends on the whole history.", "anchors": ["xboa/common/_common.py: make_root_canvas, make_root_histogram, make_root_graph, make_root_multigraph, clear_root", "xboa/bunch/_bunch.py: root_histogram, root_scatter_graph, root_graph"]}
{"id": "C87", "title": "Plots with matplotlib", "statement": "make_graph draws one line through all the points, ascending in x if sorted, strictly inside the limits; make_matplot_multigraph does so for each pair of lists with limits around all; make_histogram draws for each bin from the first that is not empty to the last but one a point at its centre with the weight of the values in it (IndexError if all are empty); plots that do not ask for a figure never share one over any history of calls, and one that asks for a figure is in it; Bunch.matplot_histogram, matplot_scatter_graph and matplot_graph plot every hit or bunch in the units asked for; plot_hist2d_ratio has in each bin the ratio of the contents, on_nan where the second is 0, and raises ValueError for histograms of other shapes.", "quantifier": "all lists of values and weights, all numbers of bins, all bunches with readable variables, all histories of calls, all histograms and increasing edges", "why_tests_cant": "What is drawn cannot be seen by a test and depends on every value; figures depend on the whole history; the ratio is put together by position from two flattened lists of any size.", "anchors": ["xboa/common/matplotlib_wrapper.py: make_histogram, make_graph, make_scatter, plot_hist2d_ratio, get_figure_index", "xboa/common/_common.py: make_matplot_histogram, make_matplot_graph, make_matplot_multigraph, make_matplot_scatter", "xboa/bunch/_bunch.py: matplot_histogram, matplot_scatter_graph, matplot_graph"]}
{"id": "C88", "title": "The file converter does what its control file says", "statement": "The control file of File_Convert.py is the list of the words of its lines; what follows # or ! and empty lines count for nothing, and lines with other keywords change nothing. Conversion reads the hits of the files named by the last file_in in the format of the last format_in, of the last station only if one is given, then rotates, translates, imposes the mass shell and writes the hits in the last format_out to the last file_out. translate shifts each variable of each hit by the last value given for it; mass_shell_condition energy puts each hit on the mass shell and changes nothing else; rotate gives the beam covariances proportional to those asked for with its emittance kept. A file is written exactly if all steps succeed.", "quantifier": "all control files, input files, prior programs, float and int parsers, eigenvector and inverse routines and command lines", "why_tests_cant": "The control file is free text whose lines combine in any order and number; a test sees one of them, and the rotation is right only by algebra over all beams.", "anchors": ["xboa/examples/File_Convert.py: file_convert, read_control_file, read_input, write_output, rotate, translate, mass_shell_condition, plots, main"]}
{"id": "C89", "title": "Hit factories read each line of a shared file once", "statement": "Whatever builtin and user factories, generators and calls of Hit.new_from_read_builtin or new_from_read_user share file handles, and in whatever order they are called, each request is answered from the next line of its file, BadEventError or another exception taking up one line, and with EOFError at the end. Constructors take exactly the known formats and read nothing. Factories of one format on the data of a file give, in order, the hits that Bunch.new_from_read_builtin reads from it. Each pid is warned about once per program, exactly those of hits whose mass or charge is not known.", "quantifier": "all programs of opening files, making factories and generators, and calling them, over any number of files of any length", "why_tests_cant": "The answers depend on every earlier call on the same handle and on the list of pids that all factories share; a test runs one order.", "anchors": ["xboa/hit/factory/_hit_factory_base.py: hit_generator, new_spill", "xboa/hit/factory/_line_factory_base.py: _read_formatted", "xboa/hit/factory/_builtin_hit_factory.py: __init__, make_hit", "xboa/hit/factory/_user_hit_factory.py: __init__, make_hit", "xboa/hit/_hit.py: new_from_read_builtin, new_from_read_user, new_list_from_maus_root, new_list_from_maus_json"]}
{"id": "C90", "title": "Subprocesses run, and kill_all_subprocesses and exit end exactly those", "statement": "A call of common.subprocess starts exactly one process, which runs, and returns the Process object or pid that stands for it; OSError only if fork fails. After any program in which no Process object fails to start or is closed and no pid is waited for, kill_all_subprocesses raises nothing, leaves every process it did not start alone and ends all it started but those made with multiprocessing that ignore SIGTERM; a second call changes nothing. At exit the same happens unless kill_subprocesses_at_exit was set to False in xboa.common._common. matplot_show_and_continue returns None with a process that shows the plots or raises ImportError.", "quantifier": "all programs of calls, of processes that end at any time, of joins, and of processes that other programs start; all pids and all failures of the system", "why_tests_cant": "What is killed depends on the whole history of calls, on when processes end and on the pids the system gives; a test sees one schedule.", "anchors": ["xboa/common/_common.py: subprocess, kill_all_subprocesses, __atexit, kill_subprocesses_at_exit, matplot_show_and_continue", "xboa/common/__init__.py", "xboa/common/config.py: has_root, has_multiprocessing, has_matplot"]}
{"id": "C91", "title": "Histograms count right in double precision", "statement": "get_bin_edges(data, n) for finite data returns n+1 doubles that never decrease, the first exactly the lower limit, each within 8*2^-53*(|lo|+|hi|) of the evenly spaced one; the limits are the least and greatest value, or one beyond when these differ by less than about 1e-9, and no value is below the first edge. histogram(...) with rising edges puts each finite value in the one cell with lower edge <= value < upper edge and NaN and infinities in none; without weights each entry is exactly the number of values in the cell, with weights it is their sum up to the rounding of that many additions. Edges and histogram of the same data together count every value below the last edge once, and that edge is at most 32*2^-53*(max|x|+2) below the greatest value.", "quantifier": "all lists of doubles (NaN and infinities included for histogram), all numbers of bins up to 2^50, all rising edges, all finite weights", "why_tests_cant": "Whether a value sits in a bin, and whether edges stay in order, hangs on rounding of each value and each number of bins; a test sees a few.", "anchors": ["xboa/common/_common.py: min_max, get_bin_edges, histogram"]}
{"id": "C92", "title": "The mass shell in double precision", "statement": "For a hit whose stored doubles are zero or between 2^-300 and 2^300, with a power function right to two units in the last place: mass_shell_condition('energy') returns True, leaves all else as it was and sets an energy >= 0 with |E^2-(p^2+m^2)| <= 40*2^-53*(p^2+m^2); with 'p' and enough energy |p^2-(E^2-m^2)| <= 100*2^-53*(E^2-m^2) and the direction is kept up to one rounding per component (a hit without momentum goes along +z); with 'px', 'py' or 'pz' the component is set to a positive root of the rest up to 40*2^-53*(E^2+p^2+m^2), or to zero with False, and which of the two is fixed by the rest save within rounding of the tolerance. check() returns False for an unknown pid or a mass off by more than the tolerance, True means |p^2+m^2-E^2| <= 1 up to rounding, and a hit just put on its shell through the energy passes unless p^2+m^2 is within rounding of half an odd integer.", "quantifier": "all hits of doubles in that range, all accurate power functions, all lists of bad pids", "why_tests_cant": "That squares of different sizes cancel to within a known number of roundings is a statement about each of 2^320 inputs; the tests look at a few hits with loose tolerances.", "anchors": ["xboa/hit/_hit.py: mass_shell_condition, set_p, get_p, check"]}
{"id": "C93", "title": "Copies through text files in double precision", "statement": "A hit of tame doubles (zero, or between 2^-250 and 2^250) and 32 bit integers with a particle known to the format, written with write_builtin_formatted in any of the five text formats, can be read back. The copy has the same integers, to the last bit the same numbers wherever the unit of the format is that of xboa, a relative error of at most 10*2^-53 in all other numbers of the line, and an energy with |E^2-(p^2+m^2)| <= 40*2^-53*(p^2+m^2). Copying the copy any number of times never fails and changes nothing more, to the last bit (the time in MARS files excepted, which is only bounded copy by copy).", "quantifier": "all hits of such doubles and integers, all five text formats, all accurate power functions, all numbers of copies", "why_tests_cant": "Whether x/1000*1000 comes back, and whether files converted back and forth drift, depends on every bit of x; tests compare a few values with a tolerance.", "anchors": ["xboa/hit/_hit.py: write_builtin_formatted, __write_formatted, get_ct, set_ct", "xboa/hit/factory/_line_factory_base.py: _read_formatted", "xboa/hit/factory/_builtin_hit_factory.py: make_hit", "xboa/common/_common.py: units"]}
{"id": "C94", "title": "Peaks with errors from the slopes", "statement": "UphillDownhillPeakFinder.find_peak_errors_derivative, given the peaks find_peaks returns and delta_index >= 1, succeeds and returns one pair per peak in order; the first of the pair is the constant c of the one least squares line i = c + m*(data[i+1]-data[i]) over the places i within delta_index of the peak, clipped to the data. It depends only on the data from delta_index before to delta_index+1 after the peak and not on the other peaks of the list, it does not move when the data are scaled (also upside down) and lifted, on a parabola it is the vertex minus 1/2 whatever the window, and a peak whose window lies beyond the data raises ValueError.", "quantifier": "all data, windows and lists of peaks, all fits that find a least squares line", "why_tests_cant": "Which places enter the fit, and that nothing of one fit leaks into the next, must hold for all data and windows; there is no test of this function at all.", "anchors": ["xboa/algorithms/peak_finder/_uphill_downhill_peak_finder.py: find_peak_errors_derivative, _get_derivative, find_peaks"]}
{"id": "C95", "title": "Translating and folding hits in double precision", "statement": "period_transformation(offset, frequency, variable) on hits with finite doubles and |t-offset|*frequency <= 2^40 succeeds and leaves in every hit t-offset minus a whole number of periods, at most half a period from zero, both up to 4*2^-53*(|t-offset|+1/frequency), and all else as it was. A hit further than 2^-50 periods from the edge is not changed by folding again, to the last bit. With frequency 0 it raises ZeroDivisionError with the offset taken from the first hit only, with NaN or infinity ValueError or OverflowError. translate(dict, 'energy') sets every named variable to the sum up to a relative error 2*2^-53, an energy that fits the new momentum and mass to 40*2^-53, and keeps all else; translating back returns to the start within 5*2^-53*(|x|+|dx|).", "quantifier": "all hits, offsets, translations and frequencies of doubles in range, all accurate power functions, all lengths of bunches", "why_tests_cant": "Whether a hit at the edge of a bucket is folded to the right side, and by how much a far hit is off, depends on every bit of the input; tests use a few round numbers with tolerances.", "anchors": ["xboa/bunch/_bunch.py: period_transformation", "xboa/hit/_hit.py: translate, mass_shell_condition"]}
{"id": "C96", "title": "Derived variables of a hit in double precision", "statement": "For a hit whose stored doubles are zero or between 2^-300 and 2^300 in size, hit['p'], ['r'], ['pt'], ['spin'], ['r_squared'], ['ct'], ['z\\''], ['kinetic_energy'] and, if pz is not 0, [\"x'\"], [\"y'\"], [\"t'\"], [\"ct'\"], [\"r'\"] return the defining formula of the stored values with a relative error of at most 24*2^-53, and ['l_kin'] with an error of at most 4*2^-53 of its two terms; with pz = 0 the slopes raise ZeroDivisionError. Setting x', y', ct or kinetic_energy changes one stored variable and reads back within 4, 4 and 8 times 2^-53 (kinetic energy: 3*2^-53 of the value and the mass). Setting t' makes pz positive, reads back within 4*2^-53 and raises exactly when the new energy is below the mass; with |pz| < 1e-9 setting a slope raises and leaves the hit.", "quantifier": "all hits of doubles in range, all values set, all accurate power functions", "why_tests_cant": "The roundings depend on every bit of the members; tests compare a few hits of round numbers to 1e-9.", "anchors": ["xboa/hit/_hit.py: get_p, get_r, get_pt, get_r_squared, get_xP, get_yP, get_tP, get_rP, get_spin, get_ct, get_ek, get_l_kin, set_ek, set_ct, set_xP, set_yP, set_tP"]}
{"id": "C97", "title": "Histories of cuts", "statement": "In a script of any number of Bunch.cut on stored variables other than weights, Bunch.transmission_cut on integers and clear_local_weights, on bunches that may share hits and tracks, no call raises and no stored variable but the weights changes. What a cut selects does not depend on the cuts before it: a weight is 0 after the last call that concerns it if that is a cut that selects the hit (for global weights: a hit of its track), 1 if that is clear_local_weights, and as at the start if no call concerns it. With cuts only, neither order nor repetition of the calls changes any reading of any hit, and the bunch weight is the sum of the starting weights of the hits that no cut concerns, so it never grows.", "quantifier": "all starting histories without a switch of weight contexts, all scripts of any length, all bunches, comparators and cut values, local and global cuts mixed", "why_tests_cant": "Tests make one cut at a time; that cuts commute must hold for all sequences and for hits shared between bunches.", "anchors": ["xboa/bunch/_bunch.py: cut, transmission_cut, clear_local_weights, bunch_weight", "xboa/examples/Example_3.py"]}
{"id": "C98", "title": "Linear transformations of hits in double precision", "statement": "hit.abelian_transformation(names, R, T, O) of a hit whose numbers (and those of R, T and O) are zero or between 2^-200 and 2^200 in size sets each named variable to its row of R(V-O)+T+O with an error of at most (4n+4)*2^-53 of the sum of the sizes of the terms, n the number of names, whatever order numpy adds up in; everything else is unchanged. With mass shell variable 'energy' the hit is then on the mass shell within 40*2^-53. The bunch method does this to every hit; if a hit raises, the exception is reported, the hits before it have been transformed and those after it are unchanged. The identity matrix with nothing added leaves every number exactly. A row of the wrong length raises ValueError and leaves the hit; too few rows raise IndexError.", "quantifier": "all hits of doubles in range, all lists of distinct names, matrices, dictionaries, all scalar products accurate to 4n units", "why_tests_cant": "The roundings depend on every bit of hit and matrix and on the order in which the linear algebra library adds; tests compare one drift to 1e-9.", "anchors": ["xboa/hit/_hit.py: abelian_transformation, get_vector", "xboa/bunch/_bunch.py: abelian_transformation"]}
{"id": "C99", "title": "Text files character by character, and interrupted writes", "statement": "The text written by Hit.write_list_builtin_formatted begins with the header; Bunch.new_from_read_builtin of that text gives what the lines of tokens give, for any test function and number of hits. If only a first part of the text is in the file (a write that was interrupted at any character), reading it gives the hits of all complete lines, restored and in order; the next line adds a hit, or makes the read fail, only if it got as far as its last word, and then it is read with what there is of that word. Files of type g4beamline_bl_track_file_2 (last column 0) never give a wrong hit and never fail, wherever they are cut. A line is read as its words, however many blanks stand before, between and after them.", "quantifier": "all reachable lists of hits, formats, comments, all texts of numbers that are words and can be read again, all points of interruption", "why_tests_cant": "A test tries some points of interruption of one file; the reader must be right for a cut at any character of any file.", "anchors": ["xboa/hit/_hit.py: write_list_builtin_formatted, __write_formatted, get_file_header", "xboa/hit/factory/_line_factory_base.py: LineFactoryBase", "xboa/bunch/_bunch.py: new_from_read_builtin, __setup_file"]}
{"id": "C100", "title": "Emittance and Twiss parameters in double precision", "statement": "For one axis, Bunch.get_emittance, computed in doubles, is the square root of the determinant of the covariances the bunch reports, divided by the mass of the first hit, with relative error at most (8 s + 16) units of precision, where s = (ad + c^2)/(ad - c^2) says how close to singular the covariances a, c, d are. get_beta, get_gamma and get_alpha are then right to 40 s units each and beta gamma - alpha^2 = 1 to 200 s units. Where rounding makes the determinant negative the emittance is not a number and nothing is raised.", "quantifier": "all bunches and worlds whose covariances, mass and mean momentum are of everyday size and s <= 2^40, all five axes, all determinants and square roots that are accurate to a few units", "why_tests_cant": "Rounding errors depend on every value in the bunch; a test sees a few beams, and nearly singular ones are where it matters.", "anchors": ["xboa/bunch/_bunch.py: Bunch.get_emittance, Bunch.get_beta, Bunch.get_gamma, Bunch.get_alpha, Bunch.covariance_matrix"]}
{"id": "C101", "title": "Reported emittance against the hits", "statement": "The emittance of one axis that Bunch.get_emittance reports, computed in doubles from n weighted hits, is the exact emittance of these hits with relative error at most 6 s e, where s says how close to singular the exact covariances are and e = 2 (2n+5) 2^-52 + rho^2; rho bounds how many widths the beam is off its axis, times (2n+3) 2^-52.", "quantifier": "all programs that make hits, all bunches with weights and values of sane size, all five axes, all accurate determinants and square roots, s e <= 1/1000", "why_tests_cant": "The error builds up over every hit of the bunch and depends on their positions; tests compare a few beams with a tolerance.", "anchors": ["xboa/bunch/_bunch.py: Bunch.get_emittance, Bunch.covariance_matrix, Bunch.moment, Bunch.mean", "xboa/core/cpplib/Bunchcore.cc: Bunchcore::get_moment"]}
{"id": "C102", "title": "Geometric emittance and Twiss parameters in double precision", "statement": "With geometric momentum on, the emittance of one axis that Bunch.get_emittance reports is the square root of the determinant of the covariances of position and slope with relative error at most (8 s + 16) 2^-53, where s says how close to singular they are; Bunch.get_beta, get_gamma and get_alpha are the covariances over it with relative error at most 40 s 2^-53, and beta gamma - alpha^2 is 1 up to 200 s 2^-53.", "quantifier": "all bunches, all five axes, all accurate determinants and square roots, all covariances zero or of size between 2^-200 and 2^200 with positive determinant and s <= 2^40", "why_tests_cant": "Rounding depends on every bit of the covariances; tests compare a few beams with a tolerance.", "anchors": ["xboa/bunch/_bunch.py: Bunch.get_emittance, Bunch.get_beta, Bunch.get_gamma, Bunch.get_alpha, Bunch.momentum_variable", "xboa/hit/_hit.py: Hit.get_xP, Hit.get_yP"]}
{"id": "C103", "title": "Dispersion in double precision", "statement": "Bunch.get_dispersion returns the covariance with the energy times the mean energy over the variance of the energy, as the bunch reports them, with relative error at most 4 x 2^-53, and ZeroDivisionError if the energies do not vary; get_dispersion_prime does the same for the momentum or the slope of the axis. Against the exact statistics of n weighted hits of positive energy the dispersion is off by at most 4 e times the largest dispersion possible for the widths of the beam, with e = 2 (2n+5) 2^-52 + rho^2 as in C101, also for hits on a straight line.", "quantifier": "all bunches and variables with reported values zero or between 2^-200 and 2^200; for the hits: all programs that make hits, weights and values of sane size, e <= 1/1000", "why_tests_cant": "The error builds up over every hit of the bunch; tests compare a few beams with a tolerance.", "anchors": ["xboa/bunch/_bunch.py: Bunch.get_dispersion, Bunch.get_dispersion_prime, Bunch.moment, Bunch.mean", "xboa/core/cpplib/Bunchcore.cc: Bunchcore::get_moment"]}
{"id": "C104", "title": "Kolmogorov-Smirnov test of two samples", "statement": "Common.kolmogorov_smirnov_test hands ROOT each sample complete, in ascending order and with its length, and its result does not depend on the order of the samples, whatever ROOT computes from the values.", "quantifier": "all samples of finite floats, all their permutations, all functions of the values in place of ROOT's", "why_tests_cant": "Tests try a few samples in one order; the claim is about every order of every sample.", "anchors": ["xboa/common/_common.py: kolmogorov_smirnov_test"]}
