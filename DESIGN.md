# Formal model of xboa: design

The subject is the Python/C++ beam analysis package in /repo (chrisrogers1234/xboa at
the pinned commit).  The model and the proofs are in Rocq/Coq 8.16.1 under
`rocq/theories`.  The properties are listed in `properties.jsonl`; the theorem names
per property are in `MANIFEST.json`; experiments with deliberately broken models are in
`seeded/LOG.jsonl`.

## 1. Shape of the development

Every area of the code has up to four files.

| suffix      | content |
|-------------|---------|
| `*Model.v`  | definitions only.  A shallow embedding of the code, function by function and branch by branch.  Every definition cites the /repo lines it models and says where it simplifies. |
| `*Spec.v`   | small, code independent vocabulary used to state the properties (sorted, permutation, quadratic form, finite map semantics, ...). |
| `*Proofs.v` | lemmas and proofs. |
| `*Props.v`  | the property theorems (`Cnn_...`), each followed by `Print Assumptions`, and beside each an `Example` showing a concrete non trivial state that meets its hypotheses. |

Conventions

* Exceptions are values (`inl error` / `inr result`, or a result type of the area).
  State that the code mutates before raising is returned together with the error.
* Objects with identity (hits, weight contexts, smart pointers) live in explicit
  heaps keyed by location, so that aliasing statements can be made.
* Numbers.  Where a property is structural (which cell is written, which row goes
  where) the model is polymorphic over an arbitrary number type given by a record of
  operations *without laws*, so the theorem holds for IEEE doubles as well as for the
  reals.  Where a property is algebraic or analytic (mass shell, moments, ellipses)
  the model is instantiated with the real numbers `R` of the standard library;
  rounding, overflow, NaN and infinities are then outside the model.  Refutations use
  witnesses over `Z`, `Q` or closed real numbers.
* A full statement that the code does not satisfy is kept as a theorem named
  `..._refuted : exists input, bad outcome`, next to the strongest positive theorem.
* A theorem weaker than its property carries the suffix `_partial` and its gap is
  recorded in the manifest and below.
* Unbounded loops (`while`) are modelled by structural recursion when a structural
  measure exists, otherwise by a fuelled function together with a theorem that some
  fuel is enough.

## 2. Trusted base

* Coq's kernel (8.16.1) and the standard library.
* `Print Assumptions` is executed for every property theorem during the build.
  Theorems that mention `R` depend on the three standard library axioms
  `ClassicalDedekindReals.sig_forall_dec`, `ClassicalDedekindReals.sig_not_dec`,
  `FunctionalExtensionality.functional_extensionality_dep` (all part of the standard
  library construction of R), and possibly `Classical_Prop.classic` when a standard
  library lemma on R uses it.  All others are closed under the global context.  The
  existence of an inversion for matrices of any size in the examples of C53 uses
  `ClassicalEpsilon.constructive_indefinite_description`.
* No axioms of our own, no section-less variables, no disabled kernel checks, no
  `Admitted`.
* For C93, that Python 3's `float(str(x))` is x for every finite double.
* For C84, C91, C92, C93, C95, C96, C98 and C100 to C104, that Flocq's definition of binary64 arithmetic (`Flocq.IEEE754.BinarySingleNaN`,
  definitions and theorems, no axioms of its own) is what the processor does: round to
  nearest even, no extended precision, no contraction into fused operations.
* That the Gallina definitions render the cited Python and C++ lines faithfully.
  Nothing was executed: the sandbox has none of the dependencies, the code was read
  as text.
* Oracles.  Library calls are not modelled internally.  `numpy.linalg.inv` is an
  arbitrary function constrained only, in the theorem, by the matrix equation used;
  `scipy` tile content, the optimiser, file parsing of a single token, and the
  scheduler of `multiprocessing` are universally quantified.

## 3. What is modelled and what is not

Modelled: weight contexts (also as called with keywords), smart pointer, C++ hit core, hit/weight interaction,
Python hit (variables, copying, mass shell, derived variables, translations, linear
transformations, equality, text formats), bunch (container, core synchronisation,
copying, comparison, queries by name, files in user defined formats, loading by station, split, cut, conditional_remove, transmission_cut, moments, covariance, tensors,
Twiss parameters, emittance, dispersion, transform_to, angular momentum, amplitude,
ellipses, shell, histogram),
common (tables, units, substitution in files, min_max, multisort, n_bins, histogram, bin edges, grid, shell,
normalise, process_list, fit_ellipse, Newton-Raphson), weighting (bounding ellipse,
multipole, Voronoi weighting with Voronoi and Delaunay tesselations as arguments), tracking (matrix, MAUS, multi-process, process life cycle, batch queue),
algorithms (peak finders, refinement of peaks, smoothing, closed orbit finder with scan and noise, decoupling, phase advance,
tune from a Fourier transform),
MAUS formats (tree written, documents read, decoded ROOT spills read by type and by file),
plots (what is handed to ROOT and to matplotlib), the file converter of the examples,
hit factories that share file handles, subprocesses, histograms in double precision, the mass shell in
double precision, text files in double precision,
fits to the slopes of peaks, translating and folding in double precision, derived
variables in double precision, scripts of cuts, linear
transformations in double precision, text files character by character and interrupted writes,
emittance, Twiss parameters and dispersion in double precision, the Kolmogorov-Smirnov test of two samples.

Of the tracking package TrackingProcess.new_from_pickle is not modelled.

Of the bunch package get_decoupled_emittance (marked as reserved for future development) and the
build_MR_ellipse, build_ET_ellipse and build_ellipse_from_transfer_matrix stubs, which only raise
NotImplementedError, are not modelled.

Not modelled: drawing (colours, styles, legends, contour functions), ROOT and JSON parsing of MAUS files below
the level of "a stream of decoded records", rounding (except for weights, moments and
means of bunches, C84, histograms, C91,
the mass shell, C92, copies through text files, C93,
translating and folding, C95, derived variables, C96, linear transformations, C98, and emittance, Twiss parameters and dispersion, C100 to C103), numpy/scipy internals, CPython
reference counting, memory exhaustion, g++ undefined behaviour other than the aliasing
covered by the smart pointer.

## 4. Plan per property

| id | model | proof method |
|----|-------|--------------|
| C01 | `WeightModel`: context = sorted association list + default; `adoptHits`, in place operators, `operate` | pointwise reading lemma through adopt; any number type |
| C02 | same, programs over an environment of named contexts | refinement to functions id -> weight by induction on the program |
| C03 | `op_not` | case analysis; refutation of involution |
| C04 | `SmartPtrModel`: handles, counts, heap of deleted objects | invariant by induction over op list, count = number of live handles |
| C05 | `HitcoreModel`: record of 30 fields by name, accessors, mutators | case analysis over names, frame lemma over heap |
| C06 | same + global context heap | induction over programs for sharing; exact change set |
| C07 | same | refutation + corrected statement with swapped arguments |
| C08 | `HitcoreModel`: dict of a hit, `new_from_dict`, pickling, list of set names | fold over the list of names |
| C09 | same | refutation, exact description of the collateral write |
| C10 | `HitPyModel` over R | real algebra |
| C11 | same | refutation + "always non negative" theorem |
| C12 | derived getters and setters over R | real algebra, branch by branch |
| C13 | `translate` over R | induction over the dict |
| C14 | `abelian_transformation` over R, list matrices | finite sums |
| C15 | `BunchModel`: list of hit locations in Python and in core | simulation over op list; exact effect and refutation for del |
| C16 | same with `TypeConversions` index conversion | refutation + exact mapping |
| C17 | `split` dictionary building | induction, permutation |
| C18 | `cut` both paths on the hit heap | induction over hits |
| C19 | `conditional_remove` delete loop | induction over the index list; refutation for n sigma |
| C20 | `transmission_cut` sorted list + bisect | sortedness, bisect specification |
| C21 | `moment`, `mean` over R | finite sums |
| C22 | both implementations | equality of folds |
| C23 | `covariance_matrix` | sum of squares; Cauchy-Schwarz by discriminant |
| C24 | `get_index_by_power`, recursion with fuel | induction on axes; NoDup + characterisation |
| C25 | `period_transformation` with floor / fmod | arithmetic with floor |
| C26 | tables | finite computation over the complete tables |
| C27 | format tables, write and read of one line at token level | lookup lemmas over all formats |
| C28 | `write_list_builtin_formatted` | induction; stable sort theory |
| C29 | reading loop | induction over the stream |
| C30 | `histogram` | bisect specification, sums |
| C31 | `get_bin_edges`, `min_max` | real arithmetic, induction |
| C32 | `multisort` | sort theory |
| C33 | `n_bins` | case analysis; refutation |
| C34 | `make_grid` counter | mixed radix counting, bijection |
| C35 | `make_shell`, `normalise_vector` | real algebra, counting |
| C36 | `process_list` with arbitrary completion order | permutation + sort uniqueness |
| C37 | `build_ellipse_2d` | real algebra |
| C38 | `build_penn_ellipse` | real algebra |
| C39 | name conventions, pickers | list induction |
| C40 | MAUS grouping | induction, permutation |
| C41 | `VoronoiModel`: bounding ellipse | loop invariant of the deleting loop; shell of C35 |
| C42 | `MultipoleModel`; the inverse is an argument | sorted lookup, linear algebra, weighted averages; refutation |
| C43 | `VoronoiModel`: apply_weights; the tesselation is an argument | positions of kept hits, assignments in order |
| C44 | matrix tracking | matrix algebra + mass shell |
| C45 | multitrack chunks | arithmetic of chunk boundaries, any finishing order |
| C46 | tracking process | transition system with the file system and the child process; invariant and refutation for stale results |
| C47 | uphill-downhill | induction over state machine |
| C48 | window peaks | characterisation |
| C49 | Gaussian smoothing | convex combination |
| C50 | cut smoothing | induction over windows |
| C51 | scan generator | refutation + what is visited |
| C52 | noise | sums |
| C53 | `DecoupleModel`: decoupled optics | complex matrices in blocks, `eig` and `inv` as arguments |
| C54 | station encoding | refutation + injectivity below ten |
| C55 | equality | refutation of transitivity + positive laws |
| C56 | phase advance | real trigonometric range |
| C57 | hit shell | induction |
| C58 | angular momentum | sums |
| C59 | amplitude | trace identity |
| C60 | `FitModel` over R | induction over the iterations; matrix algebra for affine maps |
| C61 | derived getters | real algebra, quadrants of atan2 |
| C62 | `set_covariance_matrix`, pickers | index lemmas; refutation for the second call |
| C63 | Twiss parameters | real algebra |
| C64 | `abelian_transformation` on bunches | finite sums; determinant of a product (proved in `DetProofs`) |
| C65 | `clear_local_weights`, `clear_weights`, `get_hits` | induction over the hits, frame lemmas |
| C66 | `MausModel`: tree written, documents read | groups by first appearance, induction over spills |
| C67 | `MausModel`: factory on a file handle | induction over the reading loop; refutations |
| C68 | `MausModel`: decoded ROOT primaries | mass shell is a fixed point; refutation |
| C69 | dispersion | least squares over all lines |
| C70 | `transform_to` | algebra of square matrices (`MatProofs`); refutation for other origins |
| C71 | `VoronoiModel`: hull content | Cayley-Menger determinant by row operations, any dimension |
| C72 | `NewtonModel`: Newton-Raphson, with the list of calls | induction over the rounds; matrix algebra |
| C73 | `OrbitModel`: the closed orbit finder over any tracking and any hits | induction over the passes and iterations; trace and leverage of the covariance |
| C74 | `TuneModel`: the tune from a Fourier transform, over any `rfft` meeting its definition and any peak finder | sums of cosines; induction over the refinement with a measure; counterexamples in the field of the fifth roots of unity |
| C75 | `MausTrackModel`: several trackers sharing one MAUS, over any simulation | invariants over programs; refutations |
| C76 | `RefineModel`: the search and the fit over any least squares fit | induction; normal equations; derivatives; refutations |
| C77 | `CopyModel`: copy loops over the hit world, comparison | effect of a sequence of copies by induction; refutations |
| C78 | `QueryModel`: dispatch by name, tables of values | the statistics of C21, C59 and C63 under their names; stable sort of computed columns |
| C79 | `UserIOModel`: lines of a user format, files of a dictionary of bunches | reading inverts writing column by column, by induction over the format and the hits |
| C80 | `LoadModel`: hits read are allocated, split, sorted by key | composition of C28, C29 and C17 through the state of hits |
| C81 | `MausRootModel`: decoded ROOT spills to hits, the buffering factory, the loop over types and files | specification of the hits of a spill; induction over loops, spills and types, with an invariant for the factory left behind |
| C82 | `CallModel`: argument parsing of CPython for the two calls, comparison by address | invariant of the parsing loop (every argument is used); invariance under permutation of keywords; store invariant of programs |
| C83 | `SubstModel`: str.replace, lines, files | first-occurrence decomposition, unique; lines do not matter by induction; one template step per word |
| C84 | `FloatModel`: the same model functions over binary64 (Flocq) | forward error analysis: each computed sum is a sum of the exact terms with factors between (1-u)^m and (1-u)^-m, by induction over hits and variables; sizes keep products away from underflow and overflow |
| C85 | `BatchModel`: str.find, int(), text parsing, queue with job states, processes with directories, programs of calls | positions of words in texts; invariants over all programs: distinct numbers, pid names a job of the process, unfinished jobs are the known ones, origin of outputs |
| C86 | `PlotModel`: calls of Fill and SetPoint, limits, objects kept alive, programs of calls | limits from min_max, sorted permutation, partition of the weight over bins, invariant on names |
| C87 | `PlotModel`: lines, points and limits handed to pyplot, numpy.histogram and hist2d, count of figures, programs of calls | bins of numpy by sums over a partition, blocks of flattened tables, count of figures by induction on the history |
| C88 | `ConvertModel`: words of the control file, one pass over the lines per step, bunches as in `LoadModel`, `TransformModel` and `BunchNumModel` | words by induction on a description of lines, last setting by induction on lines, C70 and C80 for rotation and input |
| C89 | `FactoryModel`: file handles as lines left, factories, generators, list of bad pids, log of what is seen; a line as in `IOModel` | invariant by induction over programs |
| C90 | `SubprocModel`: table of processes, Process objects, lists of subprocesses, flag; the system chooses pids and failures | invariant by induction over programs |
| C91 | `Bin64Model`: the functions of CommonModel over binary64 (Flocq) | monotone rounding, forward error analysis, bisection on rising edges, induction over values |
| C92 | `Shell64Model`: mass_shell_condition, set_p, get_p, check over binary64 (Flocq), the powers a parameter | calculus of factors near one, cancellation bounds, rounding to integers |
| C93 | `File64Model`: write_builtin_formatted, _read_formatted and make_hit over binary64 (Flocq) | division and multiplication by a unit are idempotent after one round (`File64Round.cycle_twice`, on neighbours and midpoints), induction over copies |
| C94 | `UphillModel`: find_peak_errors_derivative, ROOT's fit a parameter with state | normal equations, uniqueness of the least squares line, induction over the peaks with the state of the function |
| C95 | `Move64Model`: translate and period_transformation over binary64 (Flocq) | error analysis with absolute and relative errors, floor on mantissa and exponent, multiples of a power of two against cancellation |
| C96 | `Derive64Model`: getters and setters of derived variables over binary64 (Flocq) | relative errors counted in roundings, absolute ones for differences |
| C97 | `FlowModel`: scripts of cuts over the world of hits | invariant (same stored variables) along the script; last call decides, by induction and splitting of the script; order by extensionality of readings |
| C98 | `Linear64Model`: abelian_transformation over binary64 (Flocq), the scalar product a parameter | forward error of a scalar product, induction on its length; exact for the identity |
| C99 | `TextModel`: the text of a file as a string; str.split, lines, header and comments on characters | prefixes of a text are whole lines and a prefix of one more, induction over lines and words |
| C100 | `Emit64Model`: emittance and Twiss parameters over binary64, numpy.linalg.det and the power as parameters | forward error analysis with products of 1+d, elimination with pivots on the grid of doubles |
| C101 | `Emit64Model` and `MomentModel` over binary64 | Cauchy-Schwarz for weighted averages, perturbation of a 2x2 determinant, on top of C84 and C100; quotients for the Twiss parameters |
| C102 | `Emit64Model`, `Geom64Model` | the mass is one in C100; exact division by one |
| C103 | `Disp64Model` and `MomentModel` over binary64 | quotients of nearby values, Cauchy-Schwarz, on top of C84 and the covariances of C101 |
| C104 | `KsModel` | sorted permutations are unique up to the signs of zeros |

## 5. Findings about the code

Places where the natural full statement is false (each has a `_refuted` theorem unless
noted).
* F1 Copying a hit (deepcopy, new_from_dict, unpickling, Bunch.new_from_hits) writes the
  source's global weight onto the track numbered (0,0,0).
* F2 Negative indices address different elements in `Bunch` and in the statistics core.
* F3 Hits key the weight context with event and particle number swapped relative to the
  weight context's own accessors.
* F4 `conditional_remove` with n sigma takes the square root twice.
* F5 2D histogram with automatic bins divides by zero.
* F6 `make_shell` with one point per dimension does not give the documented number.
* F7 `build_ellipse_2d` with beta = 0 raises ZeroDivisionError rather than ValueError.
* F8 `mass_shell_condition('pz')` reverses backward going particles.
* F9 The mars pid table is not injective on pid 0.
* F10 SciFi station numbers collide at the accepted boundary value 10.
* F11 `set_target_moments` accepts non adjacent duplicates.
* F12 `scan_generator` stops early (and, in Python >= 3.7, ends with RuntimeError).
* F13 Integer division leftovers of Python 2 (multitrack, cut smoothing, decoupling):
  under Python 3 these raise.  `TrackModel` has both readings (`Dialect`); elsewhere the
  model follows the integer division reading and says so.
* F14 `cut` with a failing comparator leaves part of the cuts applied.
* F15 `~` on weight contexts is not an involution.
* F16 `DPhiTuneFinder.get_dphi_list` accumulates over calls.
* F17 JSON MAUS writing uses `iteritems`, absent from Python 3; the
  'maus_json_special_virtual_hit' type has no tables.
* F18 `set_g4bl_unit` only affects one of two unit tables.
* F19 The multipole weighting matrix is transposed: correct for one moment only
  (`C42_several_refuted`), or if all moments are in the same ratio to their targets
  (`C42_proportional`).
* F20 A mean missing from the dict means 0 in the core and an exception in the fallback.
* F21 `transmission_cut` tolerance is one sided.
* F22 `min_max` mutates the caller's list for a weight list of different length.
* F23 `get_emittance` ignores its `geometric` argument.
* F24 `set_tP` raises after having changed the hit.
* F25 A restarted tracking process removes its old result from the wrong directory, so a
  crash of the second run hands out the first run's result.
* F26 The keyword names of WeightContext.set_weight are shifted by one (C82_set: spill names the
  weight, event_number the spill, and so on).
* F27 Hit.set with a value of the wrong type stores -1 and then raises; integers wrap to
  32 bits.
* F28 mass_shell_condition('p') with E < m leaves px = -1 and raises IndexError.
* F29 Bunch.__eq__ returns True without comparing the hits if the comparison of the set
  covariances raises.
* F30 `del bunch[i]` always raises AttributeError; the hit has then left the list of hits
  but still counts in the statistics.
* F31 The extension modules _hitcore and _bunchcore are each linked with their own copy of
  the current weight context, so Hit.set_weight_context is not seen by the statistics and
  by the C++ path of global cuts.
* F32 An int among the values of a mean dict silently selects the Python path of `moment`,
  so that the treatment of missing means changes from "0" to KeyError (see F20).
* F33 `Bunch.abelian_transformation` documents the bunch mean as default origin; the code
  transforms about 0.
* F34 mars particle numbers 28-30, 32-36, 38 and 39 all become pdg 0, which is written as 40;
  -311 (anti K0, mars 25) has a mass but no charge, so its charge is left at 0.
* F35 The charges of the nuclei (deuteron, triton, 3He, 4He) are 0 in the table.
* F36 A newline in the comment of write_list_builtin_formatted shifts the header of icool
  files by a line, and reading the file stops with ValueError.
* F37 A line with the right number of words of which one is not a number, or with an unknown
  icool or mars particle number, is not skipped: ValueError and KeyError are not caught and
  the whole read fails.
* F38 `Bunch.histogram` multiplies the limits xmin, xmax, ymin, ymax by the size of the unit,
  although the values it bins are already expressed in this unit.
* F39 `build_penn_ellipse` and `get_canonical_angular_momentum` disagree for negative charge:
  the canonical formula does not contain the charge.  Both ellipse builders accept a
  negative momentum and return a matrix that is not positive definite.
* F40 Calling `set_covariance_matrix()` a second time does not recalculate, because `moment`
  returns the stored value; while a matrix is stored an origin given to `moment` is ignored.
* F41 `get_dispersion_prime` does not consult the class variable geometric_momentum, unlike
  all other Twiss functions (not a theorem: the argument defaults to False).
* F42 Under Python 3 (required by setup.py 85) `MultiTrack.track_many` always raises TypeError
  (slice with float bounds), and `TrackingProcess.set_hit_list` always raises TypeError
  (pickling to a file opened in text mode), so that no result is ever obtained
  (C45_python3, C46_python3).  The remaining theorems of C45 and C46 are about the
  `repaired` dialect, in which these two are mended and nothing else.
* F43 `set_hit_list` after `start` raises, since the object then holds a Popen; it has already
  changed the hit list and truncated the input file, so that a restart computes on the old
  input or fails (C46_reset_refuted).
* F44 A child that dies while writing leaves a truncated file, for which `get_return_value`
  raises EOFError instead of RuntimeError; `MultiTrack` does not catch it
  (C46_truncated_refuted).
* F45 `MultiTrack.track_one` refers to a member that does not exist (not a theorem).
* F46 `WindowPeakFinder` rejects a window size of zero and an empty list with ValueError from
  `max`; its threshold compares with a "sigma" that is not a standard deviation, so that a
  peak on a pedestal is missed (C48_pedestal_refuted).
* F47 `CutSmoothing`: Python 3 raises TypeError for every well formed table; with fewer rows
  than `step` the mean is taken over the last rows only, and may leave out the row judged
  (C50_short_refuted); a table that holds one list object twice is cut twice, which removes
  wrong rows or raises IndexError (C50_shared_refuted).
* F48 `scan_generator` visits the whole grid only if no axis but the first meets its end; if
  the last one does, only the first row is visited (C51_grid_refuted).
* F49 MAUS JSON: the event number of a hit is lost on writing and reading; the rank of the
  event becomes the spill number and the rank of the particle the event number
  (`C66_event_number_refuted`).
* F50 `MausJsonHitFactory` uses `dict.iteritems`, so that under Python 3 any file with a hit
  raises AttributeError (`C66_python3`).
* F51 `read_maus_json_file` with several types reads the first type only, because the file
  handle is at its end for the others (`C67_first_type_only`, `C67_all_types_refuted`).
* F52 `new_from_read_builtin` applies the number of hits to every MAUS file that matches
  (`C67_limit_refuted`).
* F53 IndexError while a MAUS hit is built is reported as end of file; all later hits are
  dropped silently (`C67_stops_silently`).
* F54 `MausRootHitFactory._read_primaries` looks the charge up under the charge instead of
  the pid, so that every primary is neutral (`C68_charge_refuted`).
* F55 `MausRootReconHitFactory` ends its generator with `raise StopIteration`, which is a
  RuntimeError from Python 3.7 on (`C54_python37_refuted`); it accepts the index 10, for
  which station numbers are not unique (`C54_unique_refuted`).
* F56 `get_dispersion_rsquared` takes central moments of x and y with raw ones of the energy:
  for a bunch off the axis it differs from the documented formula by
  (<x>^2+<y>^2)<E>^2/var(E) (`C69_rsquared_refuted`).
* F57 `transform_to` with an origin other than the mean, in two variables or more, never
  reaches the target shape (`C70_origin_refuted`).
* F58 `DecoupledTransferMatrix` cannot be constructed under Python 3, where `dim` is a float
  (`C53_python3`).  Under Python 2: the phase advance has the wrong sign whenever the
  eigenvalue listed first is the one of negative beta (`C53_phase_refuted`); `get_v_m` gives
  M V M^T = V rather than the documented M^T V M = V (`C53_transpose_refuted`); the ellipse
  of one plane has at most half the emittance asked for, because eigenvectors are normalised
  to 1 (`C53_emittance_refuted`); eigenvector i is used for plane i, so that uncoupled
  lattices of two planes or more give numbers that are not finite
  (`C53_uncoupled_refuted`).
* F59 `fit_ellipse` compares determinants with an absolute tolerance, starting from 0: no cut
  is applied to points whose covariance has a determinant of at most 1e-9
  (`C60_small_refuted`).  If the cut leaves no point it returns zeros
  (`C60_empty_refuted`).  The cut is the documented one in two dimensions only
  (`C60_dimension_refuted`).  With too few weights and verbose output IndexError leaves the
  function (`C60_exceptions`).
* F60 The Voronoi weighting does not work with Python 3: `apply_weights` raises TypeError for
  every bunch (`C43_python3_refuted`), and the content of a closed tile NameError
  (`C71_python3_refuted`).  With numpy 1.13 or later the constructor rejects every mean for
  two variables or more (`C43_mean_refuted`).
* F61 The Voronoi weighting with global weights gives 0 to all the hits of a track if one of
  them is outside the bound (`C43_shared_refuted`), and 0 to hits whose tile reaches infinity
  even without a bound (`C43_edge`).
* F62 `BoundingEllipse` asks for more than one point in each dimension but accepts one, which
  gives a boundary of a single point (`C41_one_point_refuted`).
* F63 The multipole weighting built by its constructor with maximum pole 1 raises IndexError
  for every bunch (`C42_pole_one_refuted`): the moments above the second are missing.  The
  constructor takes the elements of the ellipse as moments about zero, whatever the mean
  (`C42_constructor`).
* F64 `set_target_moments` accepts repeated powers that are not neighbours
  (`C42_unique_refuted`).  Powers that are all zero, or too large, are accepted too, and a
  moment of other powers is then used.
* F65 `nd_newton_raphson1` tests the tolerances before its last step, which may leave them by
  any amount (`C72_tolerance_refuted`); with a singular Jacobian the starting point comes back
  without an exception (`C72_singular_refuted`).  Limits (marked as for future development)
  are respected only if they start from 0 (`C72_limits`, `C72_limits_refuted`).
* F66 The closed orbit finder raises RuntimeError, and yields nothing, if the seed is on the
  closed orbit to within 1e-9, or if the particle is back at its start after the turns of one
  call to the tracking (`C73_fixed_refuted`).  After convergence from elsewhere the same happens in
  the next iteration (`ex_orbit`).
* F67 The generator of the closed orbit finder always ends in an exception: StopIteration raised
  in its body, which from Python 3.7 on is a RuntimeError for the caller, also if it has converged
  (`C73_stop_refuted`).  max_iterations None is a TypeError in Python 3
  (`C73_forever_refuted`).  A particle lost in the first turn is an IndexError unless the seed
  is used (`C73_lost_refuted`).
* F68 Whether a failed fit is "numerical precision limit, nice" or ValueError depends only on whether there
  are more points than asked for (`C73_end`); with one turn per call there never are
  (`C73_singular_refuted`).  The documented RuntimeError is raised in neither case.
* F69 The tune finder labels the frequency q/N with q/(N+1): the tune of N samples of a pure
  oscillation with q periods is reported as q/(N+1) (`C74_tone`, `C74_tone_refuted`).
* F70 The search for peaks with the slow transform is never reached: with no peaks ValueError comes
  first (`C74_no_peaks`).  An object used again with data without peaks reads the tune off at
  the peaks of the old data (`C74_stale_refuted`).
* F71 Refinement of a peak next to a valley reports the bottom of the valley
  (`C74_valley_refuted`), and a peak that is not symmetric is not refined however small the
  tolerance (`C74_slope_refuted`).  For one symmetric hill the tune is within the tolerance
  (`C74_refined`).
* F72 A particle that crosses a plane and has no entry in the table of charges (-311, or any
  unknown number) makes `MAUSTracking.track_many` raise KeyError: no hit of any event is
  returned, and the seeds are used up (`C75_unknown`, `C75_failed`). The MAUS file readers
  use 0 instead.
* F73 Copies of a MAUSTracking object (copy, deepcopy, pickle) fire particles with the same
  seeds (`C75_copies_refuted`).
* F74 MAUS is shared: an object made with datacards is run with those given to any object
  made, copied or unpickled later (`C75_cards_refuted`).
* F75 `RefinePeakFinder.find_peak_errors` halves the radius with `/=`; in Python 3 it
  becomes a float and every nonempty list of estimates raises (`C76_python3_refuted`).
* F76 `fit_quality` is not reset between estimates: after one whose final fit is bad the
  next is fitted with half the seed, outside the documented search, and may raise
  ZeroDivisionError although it is found on its own (`C76_separate_refuted`).
* F77 A minimum is reported as a peak (`C76_maximum_refuted`).
* F78 When the window is cut short by the start of the data the "bite" is not around the
  peak: `y_list[delta_fit-delta_bite:...]` counts from the start of the window
  (`C76_bite_refuted`).
* F79 Copying a bunch gives every hit with spill, event and particle number zero, in the
  bunch or not, the global weight of the last other hit copied (`C77_weights_refuted`); the
  bunch level form of the copying defect of C08.
* F80 `Bunch.__eq__` does not notice means set only in the right hand side, so it is not
  symmetric (`C77_symmetric_refuted`).
* F81 `Bunch.hit_equality` ignores its float_tolerance (`C77_tolerance_refuted`).
* F82 Refining a peak at the end of two frequencies takes the last frequency as the neighbour
  before the first (`k_y[-1]`) and inserts the new frequency out of order
  (`C74_sorted_refuted`).
* F83 `Bunch.get('mean', [v, u])` is documented to be the mean of v, but raises if u cannot
  be read (`C78_mean_ignored_refuted`).
* F84 `list_get_hit_variable` of a bunch without hits accepts units that do not exist
  (`C78_units_refuted`).
* F85 `hit_write_user` with a separator as '@' or ',' (the documented example uses '@')
  writes files that `new_from_read_user` reads as an empty bunch, without an error: the
  reader splits at white space only (`C79_separator`). With one column it raises ValueError.
* F86 `hit_write_user(comparator=...)` calls `list.sort(comparator)`, a TypeError in Python
  3 (`C79_comparator`).
* F87 'spill' and 'global_weight' are variables of hits but raise KeyError as columns of a
  user format, in both directions (`C79_columns_refuted`).
* F88 Units of integer columns are needed on writing but not on reading, and divide on
  writing without multiplying on reading (`C79_units_refuted`,
  `C79_integer_unit_refuted`).
* F89 `hit_write_builtin_from_dict` ignores its comment (`C79_dictionary_comment_refuted`).
* F90 `new_list_from_read_builtin` and `new_dict_from_read_builtin` group by station by
  default, but of the text formats only icool_for009 has a station: for the others all hits
  are in one bunch of station 0 (`C80_stations_refuted`).
* F91 (`C81_files_limit_refuted`, `C81_files`) `new_from_read_builtin` with a wildcard
  applies number_of_hits to every file: with two files and a limit of 1 two hits are
  returned.
* F92 (`C81_primaries_stop`) A primary with an energy below its mass ends the reading
  of a ROOT file silently; the other primaries of its spill, also those before it, and all
  later spills are missing from the result.
* F93 (`C81_python37_refuted`, `C81_default_refuted`) With Python 3.7 or later a ROOT
  file with one reconstructed event cannot be read as tracker points, and not with the
  default list of types either: RuntimeError, and the hits already read are lost.
* F94 (`C81_unknown_type_first`, `C81_unknown_type_refuted`) A type that does not exist
  gives UnboundLocalError if it is the first of the list and is passed over silently
  otherwise.
* F95 (C82_set_names_refuted) set_weight(w, s, eventNumber=e, particle_number=p) sets the
  weight of the hit (s, p, e): event and particle exchanged, no error. All other calls with
  the hit named raise KeyError.
* F96 (C82_missing_refuted, C82_extra_refuted) get_weight with fewer than three arguments
  reads uninitialised variables; with four or five the additional ones replace event and
  particle.
* F97 (C82_compare_refuted) Weight contexts with equal weights compare different; comparison
  with anything else, for example None, raises NotImplementedError.
* F98 (C83_in_place_refuted) `substitute(f, f, words)` empties the file: it is opened for
  writing before it is read.
* F99 (C83_simultaneous_refuted) Values are replaced again by later words of the dictionary:
  {'a': 'b', 'b': 'c'} turns a into c, and in the other order into b.
* F100 (C83_newline_refuted, C83_carriage_refuted) Words with a newline inside are never
  found; carriage returns before newlines are lost even if nothing is replaced.
* F101 (C84_order_refuted) Means depend on the order of the hits: 4*2^53, 4, 4, -4*2^53 have
  mean 2, computed as 0 in this order and as 2 with the small ones first. The sums are plain
  loops; a compensated sum would not lose them.
* F102 (C81_unknown_type_stale) Behind a primary type ended by a slow primary, reading an
  unknown type with the same reader brings back the primaries read before the slow one.
* F103 (C85_python3) No BSubProcess can be made under Python 3: the constructor pickles into
  a text file.
* F104 (C85_held_refuted, C85_value_held_refuted) A suspended job (USUSP, SSUSP, PSUSP,
  UNKWN) counts as ended with exit code 0: start submits a second job into the same
  directory, and get_return_value returns an output that can still change.
* F105 (C85_kill, C85_stale_refuted) kill and terminate return at once, whatever the
  timeout, although they are documented to wait; get_return_value returns the output of an
  earlier job after one that failed, the exit code is not looked at (and is a text if not
  0).
* F106 (C85_forgotten) When the queue has forgotten a job (bjobs fails), every call but kill
  and set_hit_list raises CalledProcessError for ever, also get_return_value although the
  output is there.
* F107 (C85_lost_refuted, C85_wrapped_refuted) If bsub prints no number in angle brackets,
  start raises but the job is in the queue, unknown to the process; bjobs -l breaks lines,
  and a break inside `Status <` makes is_alive raise.
* F108 (C86_top_refuted) With automatic limits the largest value is never in a bin: the
  upper limit of a ROOT axis is open and the margin is 0, so the integral over the bins is
  below the total weight.
* F109 (C86_short_weights_refuted) With fewer weights than values, make_root_histogram
  enters some values twice, all with weight 1, and changes the list of the caller.
* F110 (C86_clear_refuted) clear_root never drops graphs (it clears the canvases twice).
* F111 (C86_draw_refuted) Bunch.root_histogram with a y variable and a draw option draws a
  one dimensional histogram, or raises TypeError without a number of bins.
* F112 (C86_empty_refuted, C86_bunch_ex) Bunch.root_histogram of an empty bunch raises
  TypeError; with fewer than 10 hits it has 0 bins by default.
* F113 (C86_weightless_refuted) Scatter plots without weightless hits still show hits of
  negative weight, although documented otherwise. Bunch.root_graph and matplot_graph with a
  comparator raise TypeError under Python 3.
* F114 (C87_last_bin_refuted, C87_small_bunch_refuted) Histograms never show their last bin,
  which holds the largest value; Bunch.matplot_histogram of fewer than 10 weighted hits has
  one bin and draws nothing.
* F115 (C87_hexbin_refuted) Bunch.matplot_histogram of two variables hands the weights to
  hexbin as C, which shows their mean: with equal weights all hexagons look the same.
* F116 (C87_sort_refuted, C87_caller_lists_refuted) make_matplot_graph sorts also with
  sort=False, and all graphs sort the lists of the caller in place.
* F117 (C87_label_refuted) make_matplot_scatter labels the y axis with the label of x.
* F118 (C87_figures_refuted) A new figure can be one that an earlier call asked for by
  number.
* F119 (no theorem) matplotlib_wrapper.make_multigraph always raises NameError (min_max and
  rg are not defined in the module); Bunch.matplot_scatter_graph ends with
  pyplot.figure(collection), which matplotlib does not accept.
* F120 (C88_origin_refuted) File_Convert passes the `origin` lines as the third argument of
  transform_to, which is a translation: a hit at the origin is moved, and one at 0 goes to
  the origin.
* F121 (C88_plots_refuted) Any histogram_in, histogram_out, scatter_in or scatter_out line
  makes the conversion fail before the output is written: the plots are tuples with no
  Print. The documented plot_format has no effect.
* F122 (C88_status) File_Convert exits with status 0 when the conversion fails and nothing
  is written; an argument other than -c raises NameError.
* F123 (C88_shell, C88_steps) Of several mass_shell_condition lines the first counts, where
  for the other keywords it is the last; a rotate with a single variable is ignored.
* F124 (C89_generator_refuted, C89_generator) hit_generator gives at most one hit whatever
  the factory, where it should give all; when the next two lines are not hits it ends with
  RuntimeError, since it raises StopIteration in a generator.
* F125 (no theorem) Hit.new_list_from_maus_root and new_list_from_maus_json always raise
  AttributeError (xboa.hit.factory.factory); the latter also uses a name that is not
  defined, and both pass the arguments of the constructor in the wrong order.
* F126 (no theorem) OpalHitFactory cannot be made: its constructor calls super(None).
  Hit.new_from_read_builtin('opal_loss', ...) raises AttributeError.
* F127 (C90_root_refuted) subprocess never raises the documented ImportError when
  multiprocessing is missing and ROOT is there: it raises it in a try whose except clause
  catches it, and forks.
* F128 (C90_failed_start_refuted) a Process object is recorded before it is started. If
  start() raises, every later kill_all_subprocesses, also at exit, raises AttributeError
  there, and what was started by that call or later runs on.
* F129 (C90_close_refuted) the same after the caller closes a Process object that subprocess
  returned.
* F130 (C90_wait_refuted) after the caller waits for a pid that subprocess returned,
  kill_all_subprocesses sends SIGKILL to whatever process has that pid now; if none, it
  raises and the pids that follow are not killed.
* F131 (C90_flag_refuted) setting xboa.common.kill_subprocesses_at_exit to False has no
  effect: the name in xboa.common is a copy; only that of xboa.common._common is read.
* F132 (C91_greatest_refuted) whether the greatest value is counted in a histogram with
  edges from the same data depends on rounding: of 0 and 7, one is counted with 24 bins and
  both with 25.
* F133 (C91_below_greatest_refuted) values below the greatest can be lost: with 49 bins for
  0, 1-2^-53 and 1 only 0 is counted, as the last edge is rounded down.
* F134 (C91_distinct_refuted) edges of get_bin_edges can be the same although the limits
  differ; the bins between are empty.
* F135 (C91_same_refuted) values that are all the same and of size 2^54 or more are all
  lost: one less and one more are rounded to the value itself.
* F136 (C91_overflow_refuted) finite data whose range is more than the greatest double give
  NaN edges, and histogram drops all of them without a warning.
* F137 (C92_check_refuted) check() compares squares rounded to integers, so a hit that
  mass_shell_condition('energy') has just put on its shell can fail it: a muon of 29.048...
  MeV/c whose squared energy is next to half an odd integer, and any at energies where a
  rounding error of the square is more than one (300 TeV/c).
* F138 (C92_check_weak_refuted) check() accepts a photon with pz = 0.7 and energy 0: at low
  energies being a whole unit off in the square passes.
* F139 (C92_check_raises_refuted) check() raises OverflowError for an infinite and
  ValueError for a NaN energy instead of returning False.
* F140 (C92_p_below_refuted) with less energy than mass mass_shell_condition('p') does not
  set p to zero and return False as documented: it raises IndexError and leaves -1 in px.
* F141 (C93_exact_refuted) writing and reading is not exact where units are converted: in
  ICOOL files x = 1001 mm comes back as the next smaller double, in MARS files t = 23 ns as
  the next larger; a second copy changes nothing more.
* F142 (C94_vertex_refuted) the estimate is biased by half a place: data[i+1]-data[i] is
  taken as the derivative at i, so for a parabola with its top at 3 the fit returns 2.5.
* F143 (C94_narrow_refuted) with delta_index = 0 there is one point and two parameters; two
  fits that both find a best line return different peaks.
* F144 (C95_edge_refuted) in double precision the result of period_transformation can lie
  outside the period and folding is not idempotent at the edge: with frequency 3 a hit at t
  = -66.5 goes to -0.16666666666667140, below -1/6, and a second call with offset 0 moves it
  to +0.16666666666666190.
* F145 (C95_back_refuted) translating by 2^60 and back takes x = 1 to x = 0.
* F146 (C96_slow_refuted) the kinetic energy is E - m of rounded energies: a muon with p = 1
  eV/c whose energy comes from the mass shell has kinetic energy exactly 0.
* F147 (C96_exact_refuted) setting and getting is not exact: x' = 0.1 with pz = 3, ct = 13
  and kinetic energy 0.1 with mass 105 read back as other doubles.
* F148 (C96_tP_changes_refuted) set_tP that raises 'Energy less than muon mass' has changed
  the energy (and the sign of pz) already.
* F149 (C97_order_refuted) cuts on weights do not commute: a local cut on x and a global cut
  on local_weight < 1 in the other order leave the global weight at 1.
* F150 (C98_origin_refuted) about a far origin even the identity loses the hit: x = 1 mm
  about x = 2^60 mm becomes 0.
* F151 (C98_inverse_refuted) the inverse matrix does not undo a transformation exactly: x =
  1 mm times 49 and then times 1/49 is not 1 mm.
* F152 (C99_wrong_refuted) a file cut off inside the last word of a line is read without
  complaint with a wrong value: a mars_1 line that ends in 0.5, cut to 0., is a hit of local
  weight 0.
* F153 (C99_fails_refuted) a file cut off inside the last word can make the whole read fail:
  -1.0 cut to - raises ValueError and the complete lines before it are lost.
* F154 (C100_line_refuted) the emittance of hits on a straight line can be nan: x = 0, 4, 1
  with px = 3x gives covariances whose determinant is rounded to a negative number; its
  square root is nan and no exception is raised, while in exact arithmetic it is 0.
* F155 (C101_far_refuted) far from the axis the reported emittance is wrong by a factor: x =
  2^53, 2^53+4, 2^53+6 and px = 0, 1, 2 give three times the emittance of the hits, because
  the mean of x is rounded before it is subtracted.
* F156 (C104_nan_refuted) Common.kolmogorov_smirnov_test does not sort samples with NaN: the
  order of the sample then decides what ROOT gets, and ROOT requires ascending arrays.
