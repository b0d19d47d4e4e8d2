# Formal model of trajectopy-core: design

Everything lives in `rocq/theories` (logical name `Verif`).  Build:
`cd rocq && coq_makefile -f _CoqProject -o Makefile && make -j4`.

## 1. Approach

* Shallow model: every Python function becomes a total Gallina function that mirrors it branch by
  branch.  Exceptions are values of `result A := Ok a | Err e`; numpy arrays are lists; objects that
  are mutated in place are records that are returned, except in the heap model where
  aliasing is the subject.
* Numbers: timestamps, coordinates, angles and statistics are real numbers (`R` of the standard
  library).  Binary64 rounding, NaN and infinity are not modelled.  Where the code would
  produce inf/NaN (division by zero) the theorem carries the guard that excludes it, or the division is
  explicit in the statement.
* External numerics (KD-tree, `np.argsort` tie breaking, Slerp, eigenvectors, sparse solvers,
  Delaunay/MST, PROJ) are function arguments or relations; each theorem quantifies over all
  implementations meeting the written contract, and the contract is shown to be satisfiable.
* Each area `X` has up to four files: `XModel.v` (definitions only, each citing the Python lines),
  `XSpec.v` (independent vocabulary used in the statements), `XFacts.v` (proofs) and `XProps.v`
  (only the property theorems, each closed by `exact`, with `Print Assumptions`, next to examples that
  its hypotheses are satisfiable).
* If the code violates a property, `..._refuted` is proved with a concrete witness and
  the strongest true part is proved too; the manifest then says `partial` and the finding is listed in section 5.

## 2. Plan per property

| id | modelled | proof |
|---|---|---|
| C01 | `apply_index` with integer/boolean fancy indexing | pointwise `nth_error` characterisation |
| C02 | operation list folded over the model | invariant by induction over the history |
| C03 | constructor | case analysis, length lemmas |
| C04 | `crop` | filter characterisation, partition permutation, idempotence |
| C05 | `common_time_span` | sorted-list min/max lemmas |
| C06 | `intersect` | exact characterisation by searchsorted lemmas on sorted lists |
| C07 | `match_timestamps` (`np.intersect1d`) | unique/first-index lemmas |
| C08 | `interpolate`, `np.interp` | segment lemma by induction over knots |
| C09 | `interpolate` on all inputs | refutation witness + exact condition |
| C10 | `lengths_from_xyz` over R^3 | induction, triangle inequality |
| C11 | `sorting_index`, `sort_switching_index` | inverse permutations for any argsort contract |
| C12 | heap of trajectory and PointSet objects | frame lemmas, induction over histories |
| C13 | same heap | refutation by shared PointSet; frame theorem under separation |
| C14 | `se3`, `apply_transformation` | 4x4 matrix algebra |
| C15 | same | refutation witnesses + what is preserved |
| C16 | `apply_alignment` control flow | refutation (UnboundLocalError) |
| C17 | equations.py, sim3 matrix, apply_alignment | trigonometric/ring identity |
| C18 | `adopt_first_*` | no-op theorem and refutation |
| C19 | `kd_matcher` with nearest-neighbour contract | unique/first-index lemmas |
| C20 | same | refutation witnesses |
| C21 | temporal matching | monotonicity of nearest neighbours |
| C22 | interpolation matching | composition of C06 and C08 |
| C23 | `match_trajectories` + callers in a heap model | refutation, positive for in-place methods |
| C24 | `Line3D.evaluate_at` | projection algebra |
| C25 | `merge_trajectories` | Permutation + sortedness for any argsort |
| C26 | same | refutation + exact formula |
| C27 | `sort`, `_begin_with`, `_insert_point`, `sort_spatially` | permutation lemmas |
| C28 | `helmert_component`, matrices | ring/trig |
| C29 | `se3_inv`, errors | group algebra |
| C30 | `_get_pair_indices` all pairs | searchsorted minimality |
| C31 | consecutive pairs | refutation + conditional theorem |
| C32 | `np.arange` of pair distances | refutation + exact bound |
| C33 | absolute comparison with rotations | matrix norm preservation |
| C34 | along/cross track | algebra + refutations in degenerate directions |
| C35 | statistics | inequalities by induction |
| C36 | ParameterSet | list lemmas over masks |
| C37 | settings filters | case analysis |
| C38 | `from_settings` | refutation + exact condition |
| C39 | parameter/alignment-result tables | round trip, refutation for `to_file` |
| C40 | generic settings trees and codecs | induction over the schema |
| C41 | `update_from_dict` | refutation + characterisation |
| C42 | observation vector strides | index arithmetic |
| C43 | `build_obs_vector` speed filter | refutation |
| C44 | variance subset indices | refutation + exact condition |
| C45 | Gauss-Helmert loop with abstract solver | loop invariants, refutation for mismatched thresholds |
| C46 | header parser over strings | fold lemmas |
| C47 | decimal rounding + column layout | rounding bound, layout round trip |
| C48 | timestamp extraction | case analysis |
| C49 | `get_rot_matrix` | finite sweep over frames, refutation |
| C50 | RPE result blocks | slicing lemmas, refutation for equal means |
| C51 | cubic intervals and basis | list partition, polynomial identities, refutation |
| C52 | rotation window | refutation + characterisation |
| C53 | voxel ids as strings | refutation by collision + partition theorem |
| C54 | `shrink_data` | chunk lemmas + refutation (zeros dropped) |
| C55 | report data mutation | iteration law, refutation |
| C56 | `rndodd` | floor arithmetic |
| C57 | in-place method bodies as assignment sequences (HeapModel.v) | case analysis on the raising point, refutation for interpolate |
| C58 | `Line3D.from_points` with an eigenvector contract | quadratic-form algebra over the covariance matrix |
| C59 | `match_trajectories_spatial_interpolation` with the KD tree contract | counting reported neighbours |
| C60 | `sort` with `discard_missing=True` | refutation + conditional theorem |
| C61 | `_along_track_dev` | exact away from one case at the last pose; refutation there |
| C62 | RMS of deviation norms and components | induction over the deviations |
| C63 | absolute comparison of two moved trajectories | rotations preserve norms and traces |
| C64 | outcome of a relative comparison | totality of every step |
| C65 | ParameterSet calls as transitions | invariant over histories, refutation for rejected matrices |
| C66 | stored variances and covariance diagonal | invariant over histories, refutation after re-enabling |
| C67 | `to_estimation_settings`, `from_bool_list` | case analysis over the flags |
| C68 | `Parameter.__add__`, `__sub__`, `__neg__` | real algebra, refutation for the variances |
| C69 | `Settings.to_file` with the file content as state | refutation; success for objects of the declared kinds |
| C70 | `AlignmentData.setup` up to matching as `preprocess` | characterisation of what is kept, of every failure, and two refutations (IndexError, start time alone) |
| C71 | `read_string`, `read_data` | equality for delimited texts, refutation for white space |
| C72 | `least_squares`, `sparse_least_squares`, `fit_line_2d` with the linear solver as a contract | optimality from the normal equations |
| C73 | `mls_iterative`, `_mls_single` on top of the voxels and the line fit; nearest neighbours and eigenvectors as contracts | induction over the iterations; projection fixes points of the line; refutation for few voxels |
| C74 | `CubicApproximation` | the design matrix contains the exact solution; refutation with two intervals |
| C75 | ATE result tables, their text and reading by column name | columns of tables put side by side; text lemmas of C46/C50; refutations for lost fields and mode "a" |
| C76 | the closed-form similarity, with the singular value decomposition as a contract that may raise | expansion of the misfit around the centroids, trace inequality for orthogonal matrices; exact data by kernels; refutations by concrete point sets |
| C77 | the stacked design matrix and the weighted adjustment | rows as the Euler matrix applied to the lever arm, C72's optimality, identifiability by platform-frame speeds |
| C78 | the one-column adjustment | the same, and the closed form from the quadratic |
| C79 | mean of the rotation differences, the mean as a contract | chordal distances do not change under rotations |
| C80 | the observation equations by positional arguments, the derivative interface, the stacked design matrix; automatic differentiation as a contract | smoothness of each equation in each argument; entry by entry comparison with the derivative of the misclosures |
| C81 | triplets of the sparse condition matrix for the four layouts | index arithmetic of blocks, uniqueness of derivatives |
| C82 | linearisation, parameter updates and residuals, linear solver as a contract | normal equations: closing and orthogonality, then expansion of the weighted squares |
| C83 | the same, with evaluation and contradictions | fixed point equations, orthogonality from C82 |
| C84 | the whole estimation on top of C45's loop | zero contradictions give zero residuals by optimality; refuted with variance estimation by a singular system |
| C85 | variance factor and redundancy | diagonal solve, scaling of weighted squares, uniqueness from C82 |
| C86 | initial values (estimation.py:149-209) on top of C76, the observation data of C42 and the estimation of C84 | explicit derivatives of the misclosures, injectivity for points that are not on one line away from the singularity of the angles, then C84_total |
| C87 | the same with C77 and C78 | regularity of the normal equations of the closed-form estimates, injectivity, then C84_total |
| C88 | `Trajectory.__eq__` with numpy's broadcasting and tolerances | exact characterisation for equal lengths; refutations for lengths, times, order and quaternion signs |
| C89 | `__eq__` of alignment and RPE results through their parameters and summaries | the answer False is never produced: both comparisons assert |
| C90 | `property_dict` as an insertion-ordered dictionary | induction over the blocks with keys that are different strings; collision of keys loses a line |
| C91 | the reader as a fold over messages into a dictionary of topics | the fold groups by topic: invariant over the list of messages |
| C92 | `create_kml` with conversion and rounding as functions | thinning keeps the first visit of every place; a closed path is not closed |
| C93 | `estimate_alignment` as the composition of preprocessing, matching, data, thresholds, iteration and rotation estimation; `apply_alignment` of its result | composition of C86/C87 (exact data are recovered) with C79 (optimal rotation) and the pointwise action of `apply_alignment` |
| C94 | `metrics.ate` including the repeated matching inside `estimate_alignment` | matching of equal stamps is the identity, then C93, then C33 |
| C95 | scipy's `Rotation.from_matrix` (Markley's method, no check for orthogonality) on scaled rotation matrices | closed form of its result; equivalence with "scale one or diagonal"; a quarter turn with scale two as counterexample |
| C96 | `np.sort` and the heights i/n of the curve | counting smaller and not larger deviations of a sorted list |
| C97 | `_setup_cbar_params` as a function of data and settings; the number format is a function argument | bounds from minimum, maximum and mean; induction over the ticks |
| C98 | the rotation statistics of `ATEResult` and `rotangle` as the length of the rotation vector (function argument with a contract, one witness) | the angle is a function of the trace, which is invariant; statistics by the lemmas of C34 |
| C99 | as C98, and the position statistics | triangle inequality of vectors and, through quaternions, of rotation angles; Minkowski for the root mean square |
| C100 | the abscissae and positions the plots use (`function_of`, `pos_x` ...) and the deviations paired with them | pairing sorted keys with unsorted values is a permutation of the right pairs for all values exactly if the keys were sorted |
| C101 | `Parameter.__str__` with the format rules per unit, and the way the table splits these texts again (number formatting is a function argument with a contract) | the split is inverted text by text; the unit `ms` is cut at its `s` |
| C102 | `build_correlation_dataframe` over the sub-matrix of the covariance | Cauchy-Schwarz for positive semidefinite matrices |
| C103 | `to_dataframe` with `sort_values`, `data_rate` | sorting is a permutation of whole rows; the differences telescope |
| C104 | `rough_timestamp_matching` over the spatial matching of C19 | median of equal numbers; a nearest neighbour at distance zero is the copy itself |
| C105 | the report as a function that also returns the trajectories afterwards; the coordinate conversion is a function argument | without the map nothing is written; with the map every position is converted in place |
| C106 | axis letters, columns and traces of the scatter plot and of the map | induction over the letters and the trajectories |
| C107 | the rows of both bar charts and the label of a result | statistics by the lemmas of C34 and C98; induction over the name |
| C108 | `get_marker_dict` | order of minimum, mean and maximum |
| C109 | which plots a single or multi report consists of, as a list of kinds, and the numbers on its card | case analysis over results and settings; orientation statistics by C98 |
| C110 | `show_report` and `write_report` over a disk of directories and files with `dirname`, `mkdir` and `open` | a file system lemma; induction over paths |
| C111 | `plot_bars`: centres, widths and heights of all bars | spacing of `linspace`; bars of different results are at least one width apart |
| C112 | `_norm_hist` with `np.histogram` over given edges (the automatic choice of edges is a function argument with a contract) | induction over the edges |
| C113 | `set_aspect_equal_3d` | maximum of the half extents |
| C114 | the curves and axis units of `render_rpe` and `plot_rpe` | case analysis over the units |
| C115 | biases as means of the deviation components, comparison with a moved test | sums telescope over the poses; parallel axis law; Jensen by the triangle inequality |
| C116 | `detect_direction` as counts of growing and shrinking angles | reversing exchanges the counts; counterexample with exact polar angles |
| C117 | `_mst_sorting` on a tree that is a path, with a contract for the search; `_insert_point` | degrees in a path; a search from an end is forced along the path; arithmetic of the insertion index |
| C118 | the stored covariance at the last linearisation of an adjustment, with a contract for the pseudo inverse of regular matrices | the inverse of the normal matrix against the normal equations of the response to each observation |
| C119 | the histograms drawn and the legend entries given to them in order of drawing; the bins are an argument with a contract | every bar against the count of the named component in its bin; the counts of x and z tell the wrong legend apart |
| C120 | both scatter plots with the colour bar of C97 and the settings that reach it | C97 point by point; an example with an outlier cut off although the settings say otherwise |
| C121 | the choice of labels from sortings and from the axes of reference systems (an argument with a contract) | case analysis; an example with two systems whose axes are swapped |
| C122 | what is drawn of each trajectory in the position, coordinate and angle figures | the sorted views of C08 as curves; an example stored backwards |
| C123 | `round_to_precision`: `np.convolve` with zero padding and exchange of its arguments, rows made unique; rounding to an integer is an argument | window sums by induction on the filter size; first occurrences; constant data, short data and different abscissae as counterexamples |
| C124 | `complete_lap_dist` | norm under rotations and reversal |
| C125 | `skew_symmetric_matrix` | algebra; rotations commute with cross products |
| C126 | `ATEResult.property_dict` with the formats as arguments | entry by entry against an independent definition of greatest, least, mean, median, root mean square and standard deviation |
| C127 | `helmert` and `leverarm` as views on the parameters of a set, with variances and covariance matrices | list positions of the views; counterexample with one known variance |
| C128 | `ball_query` and `points_from_voxel_set` on the voxels of C53; the ball query of the k-d tree is an argument with `ball_contract` | distinct positions give a part of a permutation; means of points of a cell lie within a diagonal; three points on a line as counterexample |
| C129 | crop, match_timestamps, intersect and interpolate of C05–C10, composed | filters on the list of poses compose; strictly increasing timestamps determine lists; segments of a refined request; counterexample with nothing left |
| C130 | merge_trajectories of C25 applied to permuted and to partly merged lists | C25 up to permutation, distinct timestamps make the sorted list unique; two trajectories recorded in turns as counterexample |
| C131 | the matching of C19 to C23 applied to its own result | the partner of a pose is the only nearest one, so the second pairing is the identity; intersecting and interpolating at the own timestamps (C129) |
| C132 | the closed-form solution of C76 for moved sources, moved targets and permuted pairs | every similarity of the moved data is one of the original data and the other way round, so the two minima of C76 bound each other |
| C133 | the transformation and the alignment of C16 before and after the selections of C03 to C06, interpolation and merging | both treat every pose on its own, so they commute with taking rows; the interpolation is affine in the values |
| C134 | the operations that build rotations once more, with scipy 1.13.1 (poetry.lock), whose rotations have at least one row; as values and as sequences of assignments | each equals the operation of the other model except that it refuses to leave no pose; the assignments before the exception are replayed |
| C135 | the text on the disk after writing stopped at any character of `to_file`, for modes "w" and "a" | the lines on the disk are complete lines and a beginning of one more; reading this table is compared with reading the table whose last row is complete, which differs in the last cell only |
| C136 | the models of trajectory.py, merging.py, matching.py, comparison.py, alignment/ and metrics.py applied to the same recordings with affinely converted times | every array primitive is shown to commute with an increasing affine map of the times, then every operation; the search tree and the sort are required to look at differences and at the order only, with implementations that do |
| C137 | `compare_absolute`, `compare_relative` and the statistics of EvalModel applied to both orders of the arguments | the pose error of exchanged arguments is the inverse rigid motion, whose translation has the same length and whose rotation the same trace |
| C138 | `compare_absolute` after `apply_index` on both trajectories, the statistics of EvalModel and AngModel | deviations are computed row by row, so they commute with indexing; every statistic is shown to be invariant under permutations |
| C139 | all operations of TrajModel, MergeModel, MatchModel and EvalModel on a trajectory and on its enlarged copy (LenSpec) | each operation is shown to commute with the enlargement; pose errors scale by their translation only, signs and orders by positivity of the factor |
| C140 | the text on the disk after any number of characters (CutModel) and reading it with the existing readers | lines of a cut text are lines of the text and a beginning of one more (induction on the text); rows that were begun are followed through the columns and blocks; refuted parts by explicit points |
| C141 | the text of the file (StoreModel), the text on the disk after any number of characters, and the readers from text to parameters | the 14 rows are followed through lines, cells and columns; a cut in an earlier line leaves too few rows or columns; a cut in the last one is followed by the position of the comma; appended files have more than 14 rows |
| C142 | the JSON writer and reader on characters (JsonModel) and the text on the disk after any number of characters | what the reader accepts has balanced braces outside quoted texts (induction on the depth of calls); a beginning of a written dictionary has not (induction on the value); the round trip by the same inductions |
| C143 | merge and crop as already modelled | cropping keeps the rows whose time passes a test, merging permutes rows; filters keep permutations and strict orders, and a strictly sorted list is determined by its rows. REFUTED for the orientations if those trajectories that have some lose all their poses |
| C144 | the cache of lines with its keys (address of the grid, set of names), the grids in memory, their release, and histories of calls (CacheModel) | invariant: every entry refers to a grid in memory and holds the line of its points; refinement of the model without a cache. REFUTED for the memory: cached grids are never released |
| C145 | the constructor with the counter of the class over a history of calls (NameModel) | induction over the history: the numbers grow, and decimal numerals differ. REFUTED for names that were given |
| C146 | settings and results as objects in a store with the object of the default argument (AliasModel), the estimation as any function of their values | induction over the history of actions. REFUTED with assignments: the result holds the settings object itself, and without settings it is the object of the default argument |
| C147 | `total_length` after histories of the operations of TrajModel | invariant: times are ordered, and differences of arc lengths are at least the distances; interpolation moves along the segments, so that linear functions of the time bound each other; a time span of ordered poses is a block of consecutive ones. REFUTED as an equation: crop keeps the arc lengths of the original |
| C148 | `data_rate` (InfoModel) | the differences of the sorted times telescope; crop keeps a block of consecutive poses |
| C149 | `gradient_3d` and the speeds carried along by the operations of TrajModel | speed times time is the step, so that the sum is the path length; invariant: all pairs of poses respect the limit, by the triangle inequality on segments. REFUTED for the last pose: its computed speed is zero whatever the motion |
| C150 | compare_absolute with all statistics of positions, compare_relative, interpolate, path lengths, to_file/from_file (existing models) | every statistic is 1-Lipschitz: sorting does not move order statistics further than the values (counting), the standard deviation is the smallest root mean square about any centre; rotations keep distances; interpolation is a convex combination. REFUTED for deviations along the track: the direction of a reference that hardly moves turns around |
| C151 | interpolate and crop (TrajModel) | cropping keeps a block of consecutive poses; linear and spherical interpolation at a time inside of a block read this block only, by induction over what comes before and after it. REFUTED for the times and speeds of the outcome: times before the first pose kept are lost, and the last speed becomes zero |
| C152 | Parameter.__init__ with its class counter, __add__/__sub__/__neg__, to_dict, from_settings, sums of sets (DictModel) | the counter grows with every parameter made, decimal texts of different numbers differ; inserting fresh keys into a dictionary appends; calls never change names. REFUTED in general: the negation of a parameter keeps its name, and one of two equally named parameters is lost |
| C153 | matching, intersection and relative comparison with two limits (MatchModel, TrajModel, EvalModel; vocabulary in LooseSpec) | without ties an entry is reported exactly if it is the nearest one and within the limit, so that a looser limit reports more; supported timestamps grow with the gap; the list of pair distances is a prefix of the longer one. REFUTED: the pairs themselves need not survive |
| C154 | from_file on any text (IoModel); vocabulary of cells and columns in ReadSpec | inversion of a successful read, column by column; failures by the order in which the parts are read (seconds as times) |
| C155 | group_stds and _global_test (StdModel) on top of the loops of EstModel and GhmModel; quantiles of the chi-square distribution as an argument | the variances stay a multiple of the initial ones: induction over the re-estimations; the test value is the weighted sum of C85 |
| C156 | to_file and from_file of IoModel applied k times (CycleSpec.reloaded) | induction over k; rounding to nine decimals is idempotent; for orientations a counterexample, because reading normalises quaternions |
| C157 | motions as functions of time (MotionSpec), recordings of them as trajectories; interpolate, intersect, matching and absolute comparison as before | convexity: the error at fraction w is at most w(1-w) of the bound at the ends; neighbours of a matched time are at most the gap of intersect apart; one pair of trajectories reaches both bounds |
| C158 | drifting, stretched and turning estimates (DriftSpec) of any reference; compare_relative as before | the error motion E of C29 is split into rotation and translation: R_j E = R_i N; the trace of a conjugated rotation about the vertical axis gives its angle; chord at most arc length gives the bound for scales |
| C159 | compare_absolute, compare_relative and the maxima of the deviations, as before | the error motion of C29 in blocks (error_parts), the chord of a rotation by Rodrigues' formula, the triangle inequality of rotation angles by quaternions, chord at most arc length; one pair of trajectories reaches the bound |
| C160 | compare_absolute, its directed deviations with and without orientations, biases and maximum, as before | each pose read off the motion (MotionProps.recorded), the track line of C61 for the direction without orientations, C115 with the displacement along the x-axis of the vehicle; a concrete recording a quarter of a second off |
| C161 | match_temporal with the tree query as an argument under its contract, as in C19 | a strictly nearest entry is the reported one; ascending indices that contain all of a range are the range; the last sentence is refuted with an estimate that is early by one sample |
| C162 | [approximate], [piecewise_cubic], [cubic_approx] (existing model) | least squares as a projection that depends on the arguments only: unique, linear, keeps constants, does not amplify; elimination as a solver that meets the contracts |
| C163 | [approximate], [apply_transformation], [rot_average_window], [piecewise_cubic] (existing model) | C162 for positions; the chordal distance does not depend on the frame, so a single best mean turns with the frame; orientations that agree have a single best mean |
| C164 | [compare_absolute] and the statistics of ATEResult (existing model) | sorted deviations are dominated entry by entry (counting), sums by induction; a counterexample for the standard deviation |
| C165 | [cubic_fit], [cubic_approx], [piecewise_cubic], [approximate], [window_ext] (existing model) | the fit only uses differences to the first argument, so a shift changes the nodes only; for another unit the pieces and slopes scale and both fits are projections on the same space; counterexample for windows of orientations |
| C166 | [procrustes] (existing model), centre and spread of weighted points in BackSpec | the gain is the largest trace over all orthogonal matrices; exchanging sources and targets transposes the moment matrix; the rest is algebra of the centred sums |
| C167 | SeriesModel: the matching of the metrics folded over a list of estimates, the reference being passed on as the previous call left it | induction over the list with C19, C22 and C161 for one call; refuted by two halves of one drive |
| C168 | [procrustes], [direct_helmert] (existing models); weighted totals in WeightSpec | every sum in the estimation is a weighted total of a function of one pair, so equal totals give the same matrix to the decomposition; the factor by optimality (C76, C166) |
| C169 | [compare_absolute], [apply_index] and the statistics (existing models) | the deviations of the whole are a permutation of those of the parts (C138); sums are additive; the median by counting smaller and larger values |
| C170 | [direct_helmert], [direct_leverarm], [direct_timeshift], [apply_alignment], [compare_absolute] (existing models), composed | the squared root mean square error of the aligned trajectory is the quantity the estimators minimise (C76, C77, C78, C17); the mean error by a counterexample |

## 3. Trusted base

* Coq 8.16.1 kernel and its standard library.
* Axioms used (all from the standard library's construction of R and its classical lemmas):
  `ClassicalDedekindReals.sig_forall_dec`, `ClassicalDedekindReals.sig_not_dec`,
  `FunctionalExtensionality.functional_extensionality_dep`, and (through trigonometric lemmas)
  `Classical_Prop.classic`.  `Print Assumptions` under each theorem shows which;
  ASSUMPTIONS.md lists them for every theorem of MANIFEST.json.
* The reading of the Python code, the numpy/scipy/pandas contracts stated with each model definition,
  and the idealisation of floats by reals.

## 4. Modelled / not modelled

Every model file names the source lines above each definition.  In short:

| Source | Model file | Left out |
|---|---|---|
| `trajectory.py` (constructor, state, cropping, masking, copies, transformations, interpolation, matching entry points, `merge`, sorting entry points, `approximate`, frames, files) | `TrajModel`, `GeomModel`, `HeapModel`, `MatchModel`, `MergeModel`, `SortModel`, `IoModel`, `ApproxModel` | plotting methods, `pos.to_epsg` of the external `pointset` package (coordinate transformations are a function argument), logging |
| `trajectory.py`, `merging.py` with rotations of at least one row (scipy 1.13.1 of poetry.lock) | `EmptyModel` | see C134 |
| `Trajectory.to_file` stopped at any point | `TornModel` | characters reach the disk in the order in which they are written; the `open` of `to_csv` is not a crash point of its own |
| `RPEResult.to_file` and `ATEResult.to_file` stopped at any point | `CutModel` | as for `TornModel`; a result whose table cannot be made leaves the file alone in the model (the code writes the header first); pandas reads an empty last cell as not-a-number, the model as the text "" |
| `AlignmentResult.to_file` (also stopped at any point) and `from_file`, with the parameter files they call, as text | `StoreModel` | quotation marks in cells not modelled (none are written); a value that is not a finite number makes the reader's result `Ok None`; the columns are typed as numbers or text, not as integers |
| `Settings.to_file` (also stopped at any point) and `from_file` as text, with `json.dumps(..., indent=4)` and `json.load` | `JsonModel` | code points above 255, lists, NaN and infinities in JSON are not modelled; `float.__repr__` and `float` by a contract |
| `Trajectory.__init__` with `_counter` over a history of calls | `NameModel` | copies (which keep the name) are not creations |
| `estimate_alignment`: the objects of settings and results | `AliasModel` | the estimation is any function of the values of the settings and of the data; nested objects other than `estimation_settings` are values |
| `Trajectory.total_length`, `data_rate`, `speed` | `TrajModel`, `InfoModel` | division by zero is inf, the mean of nothing nan |
| `Parameter` names with their counter, `ParameterSet.to_dict`, `__add__`, `__sub__` of sets | `DictModel` | names of `ParamModel` have no running number |
| `mls_approximation.py` with the cache of `cached_line_approximator` over a history of calls | `CacheModel` | addresses of objects and iteration over frozensets are arbitrary functions with contracts; the contents of a `Voxelizer` never change after its construction |
| `rotationset.py` | `GeomModel` (abstract type of rotations with `rot_contract`, one concrete instance by matrices) | scipy's truth value of rotations (always true), Slerp outside its domain |
| `matching.py` | `MatchModel` | negative distance bounds, `searchsorted` on unsorted arrays, ties in the k-d tree are unspecified by `knn_contract` |
| `merging.py`, `sorting.py` | `MergeModel`, `SortModel` | the spanning tree and breadth-first search are contracts (`mst_contract`, `bfs_contract`, `search_contract`) |
| `evaluation/` | `EvalModel`, `BiasModel`, `AngModel`, `RpeModel`, `EqModel`, `SumModel` | logging, `__eq__` of absolute comparisons |
| `alignment/parameters.py`, `result.py` | `ParamModel`, `SettModel`, `GroupModel` | aliasing between a parameter set and numpy arrays passed in |
| `alignment/data.py` (`group_stds` and `_global_test` of `estimation.py` in `StdModel`) | `DataModel`, `StdModel` | dimensions of sparse matrices beyond their diagonals |
| `alignment/estimation.py`, `equations.py`, `egrad_interface.py` | `GeomModel`, `EstModel`, `JacModel`, `GhmModel`, `InitModel`, `CovSpec` (see the rows of C43 to C46, C80 to C87 and C118) | the linear solver, the pseudo-inverse and the automatic differentiation are contracts, all shown satisfiable (`gauss` in `SolveFacts`, `gauss_pinv` in `CovFacts`, `derive_egrad` in `JacProps`); a not-a-number scale of the initial values becomes an error; the chi-square test is not modelled |
| `alignment/direct.py` | `DirectModel` | singular value decomposition, linear solver and mean of rotations are contracts; broadcasting of single positions |
| `settings/` | `SettModel` | lists inside settings (none occur) |
| `input_output/` | `TextModel`, `HeaderModel`, `IoModel` | quotation marks, thousands separators, boolean columns, text that is not ASCII, `read_string` buffers larger than the parser's chunk, rosbag deserialisation |
| `approximation/` | `LsqModel`, `ApproxModel`, `VoxModel` | `win_size = 0`, negative voxel sizes, `k_nearest = 0`; a singular sparse system is an error instead of not-a-number |
| `report/utils.py`, `report/data.py` | `ReportModel` | HTML rendering, plots |
| `utils.py` (`round_to_precision`, `skew_symmetric_matrix`) | `SmoothModel` | a resolution of zero |
| `kml.py` | `KmlModel` | the XML around the coordinates |
| `input_output/rosbag.py`, `rosmsg.py` | `RosModel` | decoding of the bag file |
| `plotting/` (cumulative curve, colour bars, which deviation is drawn at which abscissa, alignment table, position plots and map, bar charts, histograms and their legends, scatter plots, axis labels, curves of trajectories, equal axes, figures of relative errors) | `PlotModel`, `DrawModel`, `TableModel`, `ViewModel`, `PageModel`, `MplModel` | everything else |
| `report/trajectory.py`, `report/alignment.py` (correlation table), `report/data.py` (labels), `report/single.py`, `report/multi.py` (which plots and numbers appear), `report/utils.py` (files) | `ViewModel`, `TableModel`, `PageModel` | the HTML around the plots |
| rest of `plotting/`, templates | not modelled | output of external plotting packages |

General idealisations:

* Floats are real numbers.  Rounding, overflow, infinities and not-a-number are outside the model except where a value is
  an `option` (then `None` is not-a-number) or the type `num` of the text reader.
* External numerical routines are function arguments constrained by a contract record (`argsort_contract`,
  `rot_contract`, `knn_contract`, `top_direction`, `mst_contract`, `bfs_contract`, `solve_contract`, `pinv_contract`, `text_contract`,
  `format12`, `quat_contract`).  A contract states only what the library documents; each has a witness, so that no theorem
  is vacuous.  The contract of `from_matrix` is only about proper rotation matrices.
* Python exceptions are values of the type `err`.  Subclasses are merged with the class a caller would catch: `AxisError`,
  `EmptyDataError`, `ParserError` and `JSONDecodeError` are `ValueError`.
* A set of rotations may be empty except in `EmptyModel`.  The scipy of poetry.lock refuses empty ones; C134 says exactly where that
  makes a difference.
* The global name counter is a parameter of the constructor.
* Sharing of mutable objects is modelled in `HeapModel` only, for the operations where it is observable (C13, C14).
* RPE results: the three dictionaries have the same keys everywhere and are one list of blocks; infinite values are not
  written; a first data line longer than the names is not modelled.
* Settings documents read from a file are dictionaries or raise TypeError.

## 5. Findings

Where the code does not have a property, the theorem with suffix `_refuted` proves that from the model, and the
strongest part found true is proved beside it.

| Property | What the code does instead |
|---|---|
| C13 | `ate()`/`rpe()` and other operations change trajectories that share a `PointSet` or `RotationSet` with their inputs |
| C15 | applying a transformation gives orientations to a trajectory that has none |
| C16 | `apply_alignment(inplace=True)` raises UnboundLocalError |
| C18 | `adopt_first_*` leaves the trajectory unchanged |
| C20 | nearest spatial matching keeps the first match of a reference pose, not the closest |
| C23 | spatial interpolation matching returns new trajectories that `ate`, `rpe` and the alignment ignore; one neighbour raises TypeError |
| C26 | merging computes arc lengths and speeds on the unsorted concatenation |
| C31, C32 | consecutive pairs with equal indices divide by zero; pair distances can exceed the maximum |
| C34, C61 | deviations along the trajectory lose the horizontal part without orientations and have the opposite sign with them; the sign at the last pose is wrong |
| C38 | parameters from settings use the x switch for y and z and the time shift's value for its switch |
| C39 | `AlignmentParameters.to_file` writes a file its own reader rejects; a second result appended to a file makes it unreadable |
| C40, C41, C69 | settings: nested sections given a plain value are accepted; a failing update is half applied; `to_file` empties the file before it fails |
| C43 | the speeds of disabled time shift components are not masked |
| C44 | the subset for variance estimation starts one epoch early, and wraps around at zero |
| C45 | convergence compares filtered updates with unfiltered thresholds; not-a-number counts as converged |
| C47, C48, C49, C71 | empty trajectories cannot be read back; names with line breaks inject header lines; date strings are cut to the length of the first; GPS times depend on the time zone of the machine; four of six proper navigation frames are converted with the inverse rotation; whitespace separated strings cannot be read |
| C50 | RPE files merge blocks with (nearly) equal mean distances; unit none cannot be read; an appended result is read with the data of the first |
| C51, C52, C53, C73, C74 | smoothing: wrong limits of a merged last interval; the last orientation is never used; voxel identifiers collide; few voxels raise IndexError; the piecewise fit does not reproduce straight lines |
| C54, C55 | zeros are treated as missing when data are shrunk; reports in millimetres change the result |
| C76 | nearly flat data can give a reflection instead of a rotation, and then angles that are not the best ones |
| C84 | exact data with `variance_estimation=True`: the variance factor is zero, all variances become zero and the next adjustment is singular |
| C79 | without orientations, `align_rotations` returns a rotation set instead of parameters |
| C75 | ATE files lose the name and sorting of the trajectory; a second appended result (default mode) makes the file unreadable |
| C60 | spatial sorting raises ValueError when the highest point is discarded |
| C65, C66, C68 | an invalid covariance matrix is stored before it is rejected; stale variances reappear; variances are combined as a root of squares |
| C88 | `==` on trajectories raises for different lengths, or broadcasts a single pose; unix times may differ by two and a half hours; the order of the operands matters; q and -q are unequal |
| C89 | `==` on alignment and RPE results raises AssertionError instead of answering False |
| C90 | the RPE summary loses a line if two distances are displayed alike, and raises without pairs |
| C91 | one zero quaternion makes a whole ROS bag unreadable |
| C92 | the KML export converts, rounds and thins the trajectory in place and draws closed paths open |
| C70 | a start time without an end time always fails; an emptied window raises IndexError |
| C95 | orientations turn by the wrong angle under a similarity whose scale is not one |
| C96 | the cumulative curve is one deviation too low everywhere and never reaches one |
| C98 | without orientations the orientation deviations are an n x 3 array of zeros and their statistics are zero instead of missing |
| C100 | reports pair sorted times with deviations in stored order; `plot_deviations` fails if no result has orientations |
| C101 | the alignment table shows the time shift in "m" instead of "ms" |
| C105 | a trajectory report with a map converts the trajectories of the caller to WGS84 in place |
| C106 | the map takes latitude and longitude from the first two chosen axes, so the order yx swaps them |
| C107 | bar charts cut labels at "vs", so different results can share one label |
| C108 | the upper limit of the colour bar starts from the smallest value instead of the documented mean |
| C109 | reports of results without orientations show the orientation error 0.000 |
| C110 | `show_report` fails without a path, with a plain file name, and with two missing directory levels |
| C112 | histograms drop deviations of at most 1e-6 and are not-a-number if all are zero |
| C114 | reports draw relative errors over distances and over times on the same axes |
| C116 | spatial sorting reverses a track if the detected directions are balanced, such as a half circle that is highest in the middle |
| C119 | `plot_position_hist` swaps the legend entries x and z unless directed deviations are shown |
| C120 | `scatter_deviations` ignores its plot settings except for the unit |
| C121 | trajectories in different reference systems of the same unit get the axis names (and the unit of the height) of the first one |
| C122 | `plot_pos` connects the poses as stored, not in the current sorting |
| C123 | `round_to_precision` shrinks values near the ends, fails for data shorter than its filter (default 100), and never merges different abscissae, so it does not reduce anything |
| C127 | the covariance matrices of `helmert` and `leverarm` are zero whatever the variances are; variances written through them do not reach the covariance matrix of the set |
| C128 | `ball_query` tests the means of voxels, so it misses points within the radius and returns points outside; with larger clouds also because of the identifiers (C53) |
| C129 | intersecting a trajectory again fails with IndexError if the first intersection left no pose |
| C130 | the arc lengths of a merged trajectory depend on the order in which the inputs are given |
| C134 | with the pinned scipy (1.13.1) selecting no pose of a trajectory with orientations raises ValueError halfway: timestamps and positions are gone, orientations, arc lengths and speeds are still there; moving or merging empty trajectories raises ValueError |
| C135 | interrupting `to_file` loses the old file at once, leaves files that are read as shorter trajectories or with a wrong last vertical speed, and, when appending, makes existing poses unreadable or changes their coordinate system |
| C136 | matching by interpolation accepts gaps of at most the number two (`max_gap_size` default, not settable through `MatchingSettings`), so it depends on the unit of the time stamps |
| C140 | interrupting `to_file` of a result loses the old file at once and leaves files that are read silently as results with fewer pairs or poses (the numbers of pairs in the header are not checked against the rows) or with a wrong last value |
| C141 | a missing flag in the last line of a file of an alignment result counts as switched on (`NaN != 0.0`), so an interrupted file can be read silently with an estimated sensor rotation; `to_file` always appends, so saving twice to the same file makes it unreadable |
| C143 | merging fills missing orientations with the identity only if another input has orientations: crop and merge do not commute when cropping empties the trajectories that have them |
| C144 | `cached_line_approximator` is cached without a limit and keeps every `Voxelizer` with its points alive, so memory grows with every smoothing in a process |
| C145 | automatic names (`Trajectory <n>`) can coincide with names that were given |
| C146 | `AlignmentResult.estimation_of` is the settings object that was passed, or the shared default argument of `estimate_alignment`: assigning to it changes all later alignments without settings |
| C147 | `total_length` is the last arc length; crop, cut and matching keep the arc lengths of the original, so that it is not the length of what remains |
| C149 | `gradient_3d` sets the last speed to zero: a trajectory moving at constant speed is shown standing still at its last pose, and cropping or interpolating moves this value along |
| C150 | without orientations, along-track deviations of a standing reference have a random sign: the direction is that to the next reference position, however close |
| C151 | cropping before interpolating is not the same as after: requested times between the limit and the first pose inside are dropped, and the speed at the last time is zero |
| C152 | `ParameterSet.to_dict` is keyed by name; `-p` has the name of `p`, so a set containing both loses one of them |
| C153 | with a looser limit a reference pose may lose its near partner: an earlier test pose that was excluded before takes it (`np.unique` keeps the first) |
| C156 | Saving and loading a trajectory repeatedly may change its orientations every time: quaternions are rounded to nine decimals when they are written and normalised when they are read, and the normalised ones round to other decimals (at most 1.5e-9 per component and repetition). |
| C161 | temporal matching may not pair poses with equal time stamps: if the clock of the estimate is early by a sample, its first pose takes the first pose of the reference away from the one with the same time stamp |
| C165 | The number of poses in a smoothing window of orientations (`rot_average_window`) is the number of poses divided by the number of distinct values of `round(t / window)`. The bins are fixed to the origin of time, so adding a constant to all time stamps can change the smoothed orientations: at 0, 0.4, 0.8 s with a window of 1 s nothing is smoothed, at 0.6, 1.0, 1.4 s three poses are averaged. |
| C167 | `ate` and `rpe` (evaluation/metrics.py:31, 51) match their arguments in place, so the reference the caller passed in is shortened to the poses matched to the first estimate. A second estimate evaluated against the same object is compared with that remainder: an estimate of the other half of the drive raises `ValueError`, although it can be evaluated on its own. |
| C170 | The alignment minimises squared errors, while `pos_ate` is the mean error: aligning can make it larger. Six points, two of them displaced by 1: 1/3 without alignment, 4/9 after the best similarity. |
