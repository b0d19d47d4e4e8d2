{"id": "C01", "title": "Indexing a trajectory keeps every pose together", "statement": "Trajectory.apply_index(index) applies one and the same selection to timestamps, positions, rotations, arc lengths and speeds: the i-th pose of the result is exactly the index[i]-th pose of the input in all five components (negative integers count from the end, a boolean list keeps the positions marked True in order), name and sorting are untouched, and an index outside the trajectory raises IndexError.", "quantifier": "every trajectory whose components have equal length and every integer or boolean index", "why_tests_cant": "A test picks a few indices; the guarantee is about every index list (repetitions, negatives, empty, any order) and every length.", "anchors": ["trajectopy_core/trajectory.py:Trajectory.apply_index"]}
{"id": "C02", "title": "Component lengths stay equal through any history of filtering and matching operations", "statement": "Starting from a trajectory whose timestamps, positions, rotations (if any), arc lengths and speeds have equal length, any sequence of crop, apply_index, match_timestamps, intersect and interpolate calls that all succeed leaves the five lengths equal, provided no interpolate call is left without timestamps inside the trajectory's time range.", "quantifier": "every finite history of operations with every argument", "why_tests_cant": "Histories are unbounded; a unit test exercises single calls.", "anchors": ["trajectopy_core/trajectory.py:Trajectory.apply_index", "trajectopy_core/trajectory.py:Trajectory.crop", "trajectopy_core/trajectory.py:Trajectory.match_timestamps", "trajectopy_core/trajectory.py:Trajectory.intersect", "trajectopy_core/trajectory.py:Trajectory.interpolate"]}
{"id": "C03", "title": "Constructor establishes equal component lengths", "statement": "Trajectory(pos, rot, tstamps, ...) either raises ValueError, exactly when rot is given with a length different from pos, or - for at least one position and timestamps of matching length - yields a trajectory whose five components all have the length of pos; caller-supplied arc lengths and speeds are used verbatim iff their length matches.", "quantifier": "every combination of optional arguments and every number of positions", "why_tests_cant": "The combinations of absent/wrong-length arguments and lengths are unbounded.", "anchors": ["trajectopy_core/trajectory.py:Trajectory.__init__", "trajectopy_core/trajectory.py:Trajectory.init_arc_lengths", "trajectopy_core/utils.py:lengths_from_xyz", "trajectopy_core/utils.py:gradient_3d"]}
{"id": "C04", "title": "crop keeps exactly the requested time span", "statement": "crop(t_start, t_end) keeps, in order, exactly the poses with t_start <= t <= t_end, and crop(..., inverse=True) keeps exactly the others; together the two results contain every pose of the original exactly once, and cropping twice with the same span changes nothing more.", "quantifier": "every trajectory (sorted or not, duplicate timestamps allowed) and every pair of bounds, including empty or reversed spans", "why_tests_cant": "Boundary behaviour must be right for every timestamp pattern, not only sampled ones.", "anchors": ["trajectopy_core/trajectory.py:Trajectory.crop"]}
{"id": "C05", "title": "common_time_span is the largest common interval", "statement": "common_time_span(a, b) returns (max of the minima, min of the maxima) exactly when the closed time ranges of a and b intersect and None when they do not; it raises IndexError exactly when one array is empty; the result does not depend on the order of the arguments or of the timestamps inside them.", "quantifier": "every pair of timestamp arrays", "why_tests_cant": "Four-way overlap disjunction; all relative positions of two intervals and all orders matter.", "anchors": ["trajectopy_core/utils.py:common_time_span"]}
{"id": "C06", "title": "intersect keeps exactly the poses supported by the other timestamps", "statement": "intersect(tstamps, max_gap_size) keeps, in order, exactly those poses whose timestamp lies in the common time span and which either coincide with an entry of tstamps or lie between two neighbouring entries of tstamps at most max_gap_size apart; it raises ValueError exactly when the time spans do not overlap and never indexes out of range when both are non-empty.", "quantifier": "every trajectory, every non-empty timestamp array (unsorted allowed) and every gap size", "why_tests_cant": "Neighbour lookup with searchsorted and an index+1 access must be safe and exact for every configuration.", "anchors": ["trajectopy_core/trajectory.py:Trajectory.intersect", "trajectopy_core/utils.py:common_time_span"]}
{"id": "C07", "title": "match_timestamps keeps exactly the common timestamps", "statement": "match_timestamps(tstamps) leaves a trajectory whose timestamps are strictly increasing and are exactly the values occurring in both arrays, each with the pose that carried that timestamp first in the input.", "quantifier": "every trajectory and every timestamp array, duplicates and disorder included", "why_tests_cant": "Set-intersection semantics with duplicates for arrays of any size.", "anchors": ["trajectopy_core/trajectory.py:Trajectory.match_timestamps"]}
{"id": "C08", "title": "Interpolation hits the requested timestamps inside the time range", "statement": "interpolate(tstamps) yields a trajectory whose timestamps are the requested ones lying in [first, last] timestamp, sorted ascending; positions at existing timestamps are reproduced exactly, every other position lies on the straight segment between its two temporal neighbours, and straight uniform motion is reproduced exactly. No value is ever extrapolated.", "quantifier": "every time-sorted trajectory with distinct timestamps and every request list", "why_tests_cant": "Knot, boundary and segment cases for every sampling; floating tests sample few.", "anchors": ["trajectopy_core/trajectory.py:Trajectory.interpolate", "trajectopy_core/trajectory.py:Trajectory._interpolate_positions"]}
{"id": "C09", "title": "Interpolation always leaves a consistent trajectory", "statement": "After interpolate(tstamps) the positions, rotations, arc lengths, speeds and timestamps have the same length.", "quantifier": "every trajectory and every request list, including requests entirely outside the time range", "why_tests_cant": "The failing inputs are those where no requested timestamp is inside the range; example tests do not cover them.", "anchors": ["trajectopy_core/trajectory.py:Trajectory.interpolate", "trajectopy_core/trajectory.py:Trajectory._interpolate_rotations", "trajectopy_core/utils.py:gradient_3d"]}
{"id": "C10", "title": "Arc lengths measure the path", "statement": "The arc lengths computed for a trajectory start at 0, never decrease, increase by exactly the distance between consecutive positions, end at the path length, are at least the straight-line distance between any two poses, and do not change under rigid motions; scaling positions scales them.", "quantifier": "every list of at least one 3D position", "why_tests_cant": "Inductive statement over arbitrarily long paths.", "anchors": ["trajectopy_core/utils.py:lengths_from_xyz", "trajectopy_core/sorting.py:lengths_from_xyz", "trajectopy_core/trajectory.py:Trajectory.init_arc_lengths", "trajectopy_core/trajectory.py:Trajectory.total_length"]}
{"id": "C11", "title": "Sorted views are permutations that can be undone", "statement": "Trajectory.xyz/quat/function_of list the poses ordered by time (or by arc length, according to sorting); re-indexing a sorted view with sort_switching_index restores the storage order exactly, so approximate() writes every approximated pose back to the pose it came from.", "quantifier": "every trajectory, both sortings, ties broken arbitrarily by the sort", "why_tests_cant": "Permutation-inverse law for every permutation and tie-breaking.", "anchors": ["trajectopy_core/trajectory.py:Trajectory.sorting_index", "trajectopy_core/trajectory.py:Trajectory.sort_switching_index", "trajectopy_core/trajectory.py:Trajectory.function_of", "trajectopy_core/trajectory.py:Trajectory.xyz", "trajectopy_core/trajectory.py:Trajectory.approximate"]}
{"id": "C12", "title": "inplace=False never modifies the original, copy() is independent", "statement": "For every operation taking inplace, calling it with inplace=False leaves every previously existing trajectory object observably unchanged and returns a different object; with inplace=True the returned object is the receiver and trajectories that do not share its PointSet are unchanged. A later mutation of a copy never reaches the original.", "quantifier": "every heap of trajectories, every operation and every history of operations", "why_tests_cant": "Aliasing bugs depend on histories and sharing patterns.", "anchors": ["trajectopy_core/trajectory.py:Trajectory.copy", "trajectopy_core/trajectory.py:Trajectory.apply_index", "trajectopy_core/trajectory.py:Trajectory.crop", "trajectopy_core/trajectory.py:Trajectory.interpolate", "trajectopy_core/trajectory.py:Trajectory.intersect", "trajectopy_core/trajectory.py:Trajectory.apply_transformation"]}
{"id": "C13", "title": "Trajectories do not interfere with each other", "statement": "Operating in place on one trajectory does not change another trajectory.", "quantifier": "every pair of trajectory objects, however they were built", "why_tests_cant": "Depends on object sharing that single-object tests never set up.", "anchors": ["trajectopy_core/trajectory.py:Trajectory.__init__", "trajectopy_core/trajectory.py:Trajectory.apply_index"]}
{"id": "C14", "title": "Applying a transformation moves every pose by it", "statement": "apply_transformation(T) replaces every pose P (4x4) by T*P, in order; applying T1 then T2 equals applying T2*T1, the identity changes nothing, and for a rigid T the inverse restores the poses and distances between positions and relative rotations are preserved.", "quantifier": "every trajectory with orientations and every 4x4 transformation", "why_tests_cant": "Algebraic laws over all matrices and lengths.", "anchors": ["trajectopy_core/trajectory.py:Trajectory.apply_transformation", "trajectopy_core/trajectory.py:Trajectory.se3"]}
{"id": "C15", "title": "apply_transformation only moves what it should", "statement": "A trajectory without orientations still has none after apply_transformation, and derived quantities (arc lengths, speeds) agree with the transformed positions.", "quantifier": "every trajectory and transformation", "why_tests_cant": "Needs a statement relating derived to primary data for every transformation.", "anchors": ["trajectopy_core/trajectory.py:Trajectory.apply_transformation", "trajectopy_core/trajectory.py:Trajectory.se3"]}
{"id": "C16", "title": "apply_alignment works in both modes", "statement": "apply_alignment(result, inplace) returns the aligned trajectory for inplace=True as well as for inplace=False.", "quantifier": "every trajectory and alignment result", "why_tests_cant": "A default-argument path that must succeed for every input.", "anchors": ["trajectopy_core/trajectory.py:Trajectory.apply_alignment"]}
{"id": "C17", "title": "Aligning a trajectory is the estimated functional relationship", "statement": "apply_alignment(result, inplace=False) moves every position by lever arm and time shift and then by the 7-parameter similarity, i.e. exactly to the point the alignment model (observation equations) predicts for the estimated parameters, so that the misclosure of the observation equations equals aligned position minus target; with all parameters at their defaults positions are unchanged.", "quantifier": "every pose, every Euler attitude, every parameter vector", "why_tests_cant": "Identity between two independent formula chains, for all reals.", "anchors": ["trajectopy_core/trajectory.py:Trajectory.apply_alignment", "trajectopy_core/alignment/equations.py:transformed_x_from", "trajectopy_core/alignment/equations.py:leverarm_time_component", "trajectopy_core/alignment/parameters.py:AlignmentParameters.sim3_matrix"]}
{"id": "C18", "title": "adopt_first_pose makes the first poses coincide", "statement": "After a.adopt_first_pose(b) (or adopt_first_position / adopt_first_orientation) the first pose (position / orientation) of a equals that of b.", "quantifier": "every pair of non-empty trajectories", "why_tests_cant": "Universally quantified equality; a test with already-equal first poses passes trivially.", "anchors": ["trajectopy_core/trajectory.py:Trajectory.adopt_first_pose", "trajectopy_core/trajectory.py:Trajectory.adopt_first_position", "trajectopy_core/trajectory.py:Trajectory.adopt_first_orientation"]}
{"id": "C19", "title": "Nearest-neighbour matching pairs each reference pose at most once", "statement": "Temporal and spatial matching return two trajectories of equal, non-zero length whose i-th poses are matched: the reference pose is a nearest reference pose of its test pose, closer than max_distance (any distance if 0), no reference pose is used twice, reference order is preserved and, among test poses sharing a nearest reference pose, the first one is kept; ValueError exactly when nothing is within max_distance.", "quantifier": "every pair of trajectories, every max_distance and every nearest-neighbour tie-breaking", "why_tests_cant": "Nearest-neighbour ties and many-to-one collisions occur in unboundedly many patterns.", "anchors": ["trajectopy_core/matching.py:kd_matcher", "trajectopy_core/matching.py:match_trajectories_temporal", "trajectopy_core/matching.py:match_trajectories_spatial"]}
{"id": "C20", "title": "Matching keeps the best partner", "statement": "When several test poses compete for one reference pose the closest one is kept, and after matching both trajectories have the length of the test trajectory.", "quantifier": "every pair of trajectories", "why_tests_cant": "Needs all competition patterns; documented in the docstring but not tested.", "anchors": ["trajectopy_core/matching.py:kd_matcher", "trajectopy_core/matching.py:match_trajectories_temporal"]}
{"id": "C21", "title": "Temporal matching of sorted trajectories stays sorted", "statement": "If both trajectories are time-sorted with distinct timestamps, the temporally matched trajectories are strictly time-sorted as well and matched timestamps differ by less than max_time_diff.", "quantifier": "every pair of sorted trajectories and threshold", "why_tests_cant": "Order preservation of a nearest-neighbour map for all samplings.", "anchors": ["trajectopy_core/matching.py:match_trajectories_temporal", "trajectopy_core/matching.py:kd_matcher"]}
{"id": "C22", "title": "Interpolation matching gives identical sampling", "statement": "Matching by interpolation of two time-sorted trajectories ends with both trajectories having identical timestamps and identical arc lengths, all of them timestamps of the reference trajectory; no timestamp is invented and no pose is extrapolated.", "quantifier": "every pair of time-sorted trajectories whose matching succeeds", "why_tests_cant": "Composition of three operations over arbitrary samplings with gaps.", "anchors": ["trajectopy_core/matching.py:match_trajectories_interpolation", "trajectopy_core/trajectory.py:Trajectory.intersect", "trajectopy_core/trajectory.py:Trajectory.interpolate"]}
{"id": "C23", "title": "ate()/rpe() compare matched trajectories for every matching method", "statement": "Whatever matching method the settings select, the comparison made by ate() and rpe() runs on the matched trajectories.", "quantifier": "every pair of trajectories and every matching setting", "why_tests_cant": "The spatial-interpolation branch returns new objects; only a statement over all methods exposes it.", "anchors": ["trajectopy_core/evaluation/metrics.py:ate", "trajectopy_core/evaluation/metrics.py:rpe", "trajectopy_core/matching.py:match_trajectories", "trajectopy_core/matching.py:match_trajectories_spatial_interpolation", "trajectopy_core/alignment/data.py:AlignmentData"]}
{"id": "C24", "title": "Projection onto the fitted line", "statement": "In spatial interpolation matching the matched reference point is the orthogonal projection of the test point onto the fitted 3D line: it lies on the line, the connecting vector is orthogonal to the line, no point of the line is closer, and projecting twice changes nothing.", "quantifier": "every point and every line with unit direction", "why_tests_cant": "Optimality over all points of the line.", "anchors": ["trajectopy_core/utils.py:Line3D.evaluate_at"]}
{"id": "C25", "title": "Merging keeps all poses, sorted by time", "statement": "merge_trajectories returns a time-sorted trajectory containing every pose (timestamp, position, orientation together) of every input exactly once and nothing else; if any input has orientations the inputs without get identity orientations, otherwise the result has none; an empty list raises KeyError.", "quantifier": "every list of trajectories of any lengths, any tie-breaking", "why_tests_cant": "Permutation statement over arbitrary lists.", "anchors": ["trajectopy_core/merging.py:merge_trajectories"]}
{"id": "C26", "title": "Merged trajectories have meaningful arc lengths", "statement": "The arc lengths of a merged trajectory are the arc lengths of its (time-sorted) path.", "quantifier": "every list of trajectories", "why_tests_cant": "Only fails for interleaved inputs.", "anchors": ["trajectopy_core/merging.py:merge_trajectories", "trajectopy_core/trajectory.py:Trajectory.__init__", "trajectopy_core/trajectory.py:Trajectory.apply_index"]}
{"id": "C27", "title": "Spatial sorting returns a rearrangement", "statement": "The order produced by spatial sorting without discarding contains every pose exactly once; the start of the order is a rotation of the reconstructed path beginning at the highest point (end of it if the direction was flipped), and sort_spatially stores with each pose the arc length of its place in the sorted path so that sorting by arc length reproduces that path.", "quantifier": "every reconstructed order, set of missing points and direction decision", "why_tests_cant": "Permutation law over arbitrary orders and insert positions.", "anchors": ["trajectopy_core/sorting.py:sort", "trajectopy_core/sorting.py:_begin_with", "trajectopy_core/sorting.py:_insert_point", "trajectopy_core/trajectory.py:Trajectory.sort_spatially"]}
{"id": "C28", "title": "Helmert model, transformation object and rotation convention agree", "statement": "For every parameter vector the component equations of the Helmert transformation equal translation + scale * Rz*Ry*Rx * point, the matrix form applied by HelmertTransformation/sim3 gives the same point, the rotation is a proper rotation, and the transformation scales every distance by |scale| and is the identity at the default parameters.", "quantifier": "all points, angles, translations and scales", "why_tests_cant": "Trigonometric identities for all reals.", "anchors": ["trajectopy_core/alignment/equations.py:helmert_component", "trajectopy_core/alignment/parameters.py:HelmertTransformation"]}
{"id": "C29", "title": "Pose inversion and relative errors are coordinate-free", "statement": "se3_inv(P) is a two-sided inverse of every rigid pose; the relative pose errors are unchanged when either trajectory is moved by any rigid transformation, are zero when the relative motions agree, and the rotation error lies in [0, pi].", "quantifier": "every pair of rigid pose lists and every rigid transformation", "why_tests_cant": "Group identities over all rotations.", "anchors": ["trajectopy_core/evaluation/comparison.py:se3_inv", "trajectopy_core/evaluation/comparison.py:rotation_error", "trajectopy_core/evaluation/comparison.py:translation_error", "trajectopy_core/evaluation/comparison.py:compare_trajectories_relative"]}
{"id": "C30", "title": "RPE pose pairs are valid and far enough apart", "statement": "With all pose pairs enabled, for increasing distances and positive pair distance every pair (i, j) has i < j inside the trajectory, pose j is the first at least pair_distance beyond pose i, and every i for which the trajectory extends strictly more than pair_distance beyond it is used exactly once.", "quantifier": "every non-decreasing distance array and every pair distance > 0", "why_tests_cant": "First-index minimality for arbitrary spacing.", "anchors": ["trajectopy_core/evaluation/comparison.py:_get_pair_indices"]}
{"id": "C31", "title": "Consecutive RPE pairs never have zero length", "statement": "With consecutive pose pairs every pair (i, j) satisfies i < j, so that dividing by the pair distance is meaningful.", "quantifier": "every increasing distance array and pair distance > 0", "why_tests_cant": "Fails only for spacings larger than the pair distance.", "anchors": ["trajectopy_core/evaluation/comparison.py:_get_pair_indices", "trajectopy_core/evaluation/comparison.py:compare_trajectories_relative"]}
{"id": "C32", "title": "Pair distances respect the configured range", "statement": "The evaluated pair distances start at pair_min_distance, grow by pair_distance_step and stay within [pair_min_distance, pair_max_distance].", "quantifier": "every setting with min <= max and step > 0", "why_tests_cant": "Fails when the range is not a multiple of the step.", "anchors": ["trajectopy_core/evaluation/comparison.py:compare_trajectories_relative"]}
{"id": "C33", "title": "ATE deviations are exact", "statement": "The position deviations of a comparison are reference minus test, pose by pose; with orientations the directed deviations are the opposite vectors (test minus reference) expressed in the body frame of the reference (of the test, if only the test has orientations), so their norms agree; comparing a trajectory with itself gives zero everywhere; swapping the trajectories negates the deviations.", "quantifier": "every pair of equally long trajectories", "why_tests_cant": "Vector identity for every rotation.", "anchors": ["trajectopy_core/evaluation/comparison.py:compare_trajectories_absolute", "trajectopy_core/evaluation/comparison.py:derive_dev_directions_with_rot"]}
{"id": "C34", "title": "Along/cross-track decomposition is orthogonal", "statement": "Without orientations the along-track, horizontal and vertical cross-track deviations of a pose decompose its deviation: the sum of their squares is the squared distance between the poses, and the foot point is the closest point of the line.", "quantifier": "every test point and every pair of distinct reference points", "why_tests_cant": "Sign handling in degenerate directions escapes sampled tests.", "anchors": ["trajectopy_core/evaluation/comparison.py:derive_dev_directions_no_rot", "trajectopy_core/evaluation/comparison.py:_cross_track_dev", "trajectopy_core/evaluation/utils.py:nearest_point"]}
{"id": "C35", "title": "Error statistics are ordered", "statement": "For the deviation norms of a result, 0 <= min <= mean <= rms <= max, min <= median <= max, rms^2 = mean^2 + std^2, and all vanish exactly when all deviations vanish.", "quantifier": "every non-empty list of deviations", "why_tests_cant": "Inequalities over arbitrary-length data.", "anchors": ["trajectopy_core/evaluation/utils.py:rms", "trajectopy_core/evaluation/ate_result.py:ATEResult"]}
{"id": "C36", "title": "Parameter sets: enabled-only access round-trips", "statement": "Setting the values (or the covariance block) of the enabled parameters and reading them back returns what was set, does not touch disabled parameters, and raises ValueError exactly when the length is not the number of enabled parameters; disabled parameters always report their default value and zero variance when disabled through the API.", "quantifier": "every parameter set, every enabled mask and every value vector", "why_tests_cant": "2^n masks times all vectors.", "anchors": ["trajectopy_core/alignment/parameters.py:ParameterSet", "trajectopy_core/alignment/parameters.py:Parameter"]}
{"id": "C37", "title": "Settings decide which parameters are estimated", "statement": "The parameters enabled by apply_settings, the filtered design-matrix columns and the number of estimated parameters all agree with the alignment settings; the time shift is estimated iff it is requested and at least one speed axis is used.", "quantifier": "every combination of estimation switches", "why_tests_cant": "2^14 combinations and agreement of three code paths.", "anchors": ["trajectopy_core/settings/alignment.py:AlignmentEstimationSettings", "trajectopy_core/alignment/parameters.py:AlignmentParameters.apply_settings"]}
{"id": "C38", "title": "Parameters built from settings follow the settings", "statement": "AlignmentParameters.from_settings enables exactly the parameters the settings enable.", "quantifier": "every combination of estimation switches", "why_tests_cant": "Only combinations with different translation switches reveal a mix-up.", "anchors": ["trajectopy_core/alignment/parameters.py:AlignmentParameters.from_settings"]}
{"id": "C39", "title": "Alignment parameters survive a file round trip", "statement": "Parameters (values, enabled flags, covariance) written to a file and read back are the same up to the written precision.", "quantifier": "every parameter set, values and covariance", "why_tests_cant": "Round trip over all states, not a sampled one.", "anchors": ["trajectopy_core/alignment/parameters.py:ParameterSet.to_file", "trajectopy_core/alignment/parameters.py:ParameterSet.from_file", "trajectopy_core/alignment/result.py:AlignmentResult"]}
{"id": "C40", "title": "Settings survive a dictionary/JSON round trip", "statement": "from_dict(to_dict(s)) equals s for every settings object, nested settings, enums and units included; extra keys are ignored; a missing key raises ValueError.", "quantifier": "every settings value and every dictionary", "why_tests_cant": "Structural induction over nested settings and all enum members.", "anchors": ["trajectopy_core/settings/base.py:Settings"]}
{"id": "C41", "title": "A failed settings update changes nothing", "statement": "If updating settings from a dictionary raises because of a missing key, the settings are unchanged.", "quantifier": "every settings object and every dictionary", "why_tests_cant": "Atomicity over all partial dictionaries.", "anchors": ["trajectopy_core/settings/base.py:Settings.update_from_dict"]}
{"id": "C42", "title": "Observation vector layout", "statement": "The observation vector is epoch-major with the groups source xy/z, target xy/z, (roll/pitch/yaw), (speed) in this order; writing a group and reading it back returns what was written and leaves all other groups unchanged; total length is epochs times observations per epoch.", "quantifier": "every number of epochs, every setting, every group", "why_tests_cant": "Strided index arithmetic for all sizes and groups.", "anchors": ["trajectopy_core/alignment/data.py:AlignmentData"]}
{"id": "C43", "title": "Unused speed axes do not take part in time shift estimation", "statement": "Disabling use_x_speed/use_y_speed/use_z_speed removes that speed component from the observations.", "quantifier": "every combination of speed switches and every trajectory", "why_tests_cant": "Only mixed switch settings distinguish the behaviour.", "anchors": ["trajectopy_core/alignment/data.py:AlignmentData.build_obs_vector"]}
{"id": "C44", "title": "Variance estimation subset is a window of consecutive observations", "statement": "The subset used for variance estimation consists of consecutive poses inside the data.", "quantifier": "every data size and every random draw", "why_tests_cant": "Off-by-one at the window edge appears only for particular draws.", "anchors": ["trajectopy_core/alignment/data.py:AlignmentData.get_variance_estimation_subset"]}
{"id": "C45", "title": "Estimation always terminates and reports convergence truthfully", "statement": "The adjustment performs at most the configured number of iterations; it reports convergence only if in the last iteration every parameter change was below its own threshold; without convergence the initial parameters are returned.", "quantifier": "every sequence of solver updates and every setting", "why_tests_cant": "Quantifies over all update sequences of an iterative solver.", "anchors": ["trajectopy_core/alignment/estimation.py:AlignmentEstimation"]}
{"id": "C46", "title": "Header parsing is deterministic and last-wins", "statement": "For every header text the parsed value of a tag is that of its last occurrence, unknown tags and non-header lines are ignored, missing tags take the documented defaults, and header lines written by to_file are read back unchanged for names without irregular whitespace.", "quantifier": "every sequence of lines", "why_tests_cant": "Arbitrary texts and repetitions.", "anchors": ["trajectopy_core/input_output/header.py:HeaderData"]}
{"id": "C47", "title": "Trajectory file round trip", "statement": "A trajectory written with to_file and read with from_file has the same number of poses, the same order, orientation availability, epsg and name, and every value differs by at most 5e-10.", "quantifier": "every trajectory", "why_tests_cant": "Rounding bound over all reals and column layouts.", "anchors": ["trajectopy_core/trajectory.py:Trajectory.to_file", "trajectopy_core/trajectory.py:Trajectory.from_file", "trajectopy_core/input_output/trajectory_io.py"]}
{"id": "C48", "title": "Timestamps are interpreted according to the time format", "statement": "UNIX timestamps need exactly one t column, GPS seconds of week become week*604800 + sow - 18 s after the GPS epoch, a time offset is always added, and without usable time information the poses are numbered 0..n-1.", "quantifier": "every table and header", "why_tests_cant": "All header combinations.", "anchors": ["trajectopy_core/input_output/trajectory_io.py:extract_trajectory_timestamps", "trajectopy_core/input_output/trajectory_io.py:parse_gps_sow"]}
{"id": "C49", "title": "Navigation frame conversion is a proper rotation", "statement": "For every navigation frame name accepted by the importer the conversion matrix to ENU is a proper rotation mapping each named axis to its ENU direction.", "quantifier": "every frame string", "why_tests_cant": "All letter combinations; only left-handed ones fail.", "anchors": ["trajectopy_core/input_output/utils.py:get_rot_matrix"]}
{"id": "C50", "title": "RPE result bookkeeping and file round trip", "statement": "The per-distance blocks of an RPE result have matching lengths, num_pairs lists the non-empty block sizes and sums to the number of exported rows; reading an exported result restores the blocks as long as no two blocks have the same mean pair distance.", "quantifier": "every RPE result", "why_tests_cant": "Block slicing for all block-size sequences.", "anchors": ["trajectopy_core/evaluation/rpe_result.py:RPEResult"]}
{"id": "C51", "title": "Piecewise cubic approximation covers the data", "statement": "The intervals of the piecewise cubic approximation partition the observations in order, every interval but possibly none has at least min_obs observations, the basis functions interpolate the interval ends, and evaluation at an interval boundary returns the node value.", "quantifier": "every non-decreasing function argument, interval size and min_obs", "why_tests_cant": "Partition law for arbitrary data and parameters.", "anchors": ["trajectopy_core/approximation/cubic_approximation.py:CubicApproximation"]}
{"id": "C52", "title": "Orientation smoothing uses a centred window", "statement": "Every pose's smoothed orientation is the mean over all orientations within half a window before and after it, itself included.", "quantifier": "every trajectory and window size", "why_tests_cant": "The last pose is the exception a sampled test misses.", "anchors": ["trajectopy_core/approximation/rot_approximation.py:rot_average_window"]}
{"id": "C53", "title": "Voxels separate points", "statement": "Two points share a voxel iff their integer voxel coordinates agree, and every point belongs to exactly one voxel.", "quantifier": "every point set and voxel size", "why_tests_cant": "Identifier collisions need specific multi-digit coordinates.", "anchors": ["trajectopy_core/approximation/voxelizer.py:Voxelizer"]}
{"id": "C54", "title": "Shrinking report data", "statement": "shrink_data returns at most max_size values, returns short inputs unchanged, and each output value is the mean of its consecutive chunk of inputs.", "quantifier": "every list and max_size", "why_tests_cant": "Chunking and padding for all length/size residues.", "anchors": ["trajectopy_core/report/utils.py:shrink_data"]}
{"id": "C55", "title": "Rendering a report does not change the result", "statement": "Building report data from an ATE result (any number of times, in mm or m) leaves the result unchanged.", "quantifier": "every result and number of constructions", "why_tests_cant": "Repetition-dependent mutation.", "anchors": ["trajectopy_core/report/data.py:ATEReportData"]}
{"id": "C56", "title": "Rounding to odd", "statement": "rndodd(s) is an odd integer at distance at most 1 from s, equal to s for odd integers.", "quantifier": "every real s", "why_tests_cant": "All reals, including negative ones.", "anchors": ["trajectopy_core/utils.py:rndodd"]}
{"id": "C57", "title": "A failing in-place operation leaves the trajectory as it was", "statement": "If an in-place apply_index, crop, match_timestamps, intersect or interpolate call raises, the trajectory it was called on is observably unchanged.", "quantifier": "every trajectory with equal component lengths and every argument of every in-place call", "why_tests_cant": "The guarantee is about every point at which a call can raise between two attribute assignments.", "anchors": ["trajectopy_core/trajectory.py:Trajectory.apply_index", "trajectopy_core/trajectory.py:Trajectory.intersect", "trajectopy_core/trajectory.py:Trajectory.interpolate"]}
{"id": "C58", "title": "Spatial interpolation fits the least-squares line", "statement": "The line fitted to the k neighbouring reference positions minimises the sum of squared distances: no other line has a smaller one.", "quantifier": "every list of at least two positions and every competing line", "why_tests_cant": "Optimality over all lines.", "anchors": ["trajectopy_core/utils.py:Line3D.from_points", "trajectopy_core/matching.py:match_trajectories_spatial_interpolation"]}
{"id": "C59", "title": "Spatial interpolation keeps or refuses every pose", "statement": "Spatial interpolation matching without distance limit keeps every test position when the reference has at least k >= 2 poses, and never succeeds when it has fewer.", "quantifier": "every pair of trajectories, every k", "why_tests_cant": "Ranges over all sizes on both sides of k.", "anchors": ["trajectopy_core/matching.py:match_trajectories_spatial_interpolation"]}
{"id": "C60", "title": "Spatial sorting with discarding keeps the triangulated poses", "statement": "Spatial sorting with discard_missing=True (the default) succeeds and returns every pose that the triangulation kept exactly once.", "quantifier": "every point list and triangulation", "why_tests_cant": "Fails only when the highest point is the one dropped.", "anchors": ["trajectopy_core/sorting.py:sort", "trajectopy_core/sorting.py:_begin_with"]}
{"id": "C61", "title": "Along-track deviations have the right sign", "statement": "Without orientations the along-track deviation of a pose is the signed distance, in the direction of travel of the reference, from the reference pose to the test pose.", "quantifier": "every pair of equally long trajectories and every pose with distinct neighbouring reference poses", "why_tests_cant": "The sign depends on where the foot point falls on the line, over all real positions.", "anchors": ["trajectopy_core/evaluation/comparison.py:_along_track_dev"]}
{"id": "C62", "title": "Component RMS values add up", "statement": "The squared RMS of the position deviations equals the sum of the squared RMS of their x, y and z components and, with orientations, of their along-track and cross-track components.", "quantifier": "every non-empty comparison result", "why_tests_cant": "An identity over all real deviations.", "anchors": ["trajectopy_core/evaluation/ate_result.py:ATEResult.pos_dev_rms", "trajectopy_core/evaluation/ate_result.py:ATEResult.pos_rms_along"]}
{"id": "C63", "title": "Absolute errors do not depend on the coordinate frame", "statement": "Moving reference and test by the same rigid transformation rotates the deviations and changes no error statistic, no directed deviation (with orientations) and no rotation angle.", "quantifier": "every pair of equally long trajectories and every rigid transformation", "why_tests_cant": "Ranges over all rigid motions.", "anchors": ["trajectopy_core/evaluation/comparison.py:compare_trajectories_absolute", "trajectopy_core/evaluation/ate_result.py:ATEResult"]}
{"id": "C64", "title": "Relative comparison fails only with ValueError", "statement": "For matched trajectories, sorted distances, a sensible range and a positive step a relative comparison returns a result with at least one pose pair or raises ValueError; an unusable unit or range always raises ValueError.", "quantifier": "every pair of equally long trajectories and every setting", "why_tests_cant": "Totality over all inputs and settings.", "anchors": ["trajectopy_core/evaluation/comparison.py:compare_trajectories_relative"]}
{"id": "C65", "title": "Covariance matrices keep their shape", "statement": "Whatever calls are made on a parameter set, its covariance matrix has one row and column per parameter, so reading it for the enabled parameters never fails.", "quantifier": "every parameter set and every sequence of calls", "why_tests_cant": "An invariant over all call histories, including calls that raise.", "anchors": ["trajectopy_core/alignment/parameters.py:ParameterSet.set_covariance_matrix", "trajectopy_core/alignment/parameters.py:ParameterSet.validate_covariance"]}
{"id": "C66", "title": "Variances and covariance matrix agree", "statement": "Whatever calls are made on a parameter set, the reported variance of an enabled parameter is its diagonal entry in the covariance matrix.", "quantifier": "every parameter set and every sequence of calls", "why_tests_cant": "The two copies of a variance can only be compared over all histories of enabling, disabling and assigning.", "anchors": ["trajectopy_core/alignment/parameters.py:ParameterSet"]}
{"id": "C67", "title": "Settings can be recovered from parameters", "statement": "The estimation settings derived from a parameter set enable exactly the parameters enabled in the set; settings are made from a list of switches exactly when it has 14 elements.", "quantifier": "every parameter set and every list of switches", "why_tests_cant": "2^14 combinations.", "anchors": ["trajectopy_core/alignment/parameters.py:AlignmentParameters.to_estimation_settings", "trajectopy_core/settings/alignment.py:AlignmentEstimationSettings.from_bool_list"]}
{"id": "C68", "title": "Arithmetic on parameters propagates values and variances", "statement": "Sums, differences and negations of (independent) parameters have the sum, difference and negation of the values and the sum of the variances.", "quantifier": "all parameters", "why_tests_cant": "An identity over all real values and variances.", "anchors": ["trajectopy_core/alignment/parameters.py:Parameter"]}
{"id": "C69", "title": "A failed save leaves the settings file as it was", "statement": "If writing settings to a file raises, an existing file keeps its content.", "quantifier": "every settings object and every previous file content", "why_tests_cant": "Needs every object that cannot be serialised and every previous content.", "anchors": ["trajectopy_core/settings/base.py:Settings.to_file"]}
{"id": "C70", "title": "Alignment preprocessing keeps exactly the requested poses", "statement": "Before estimation both trajectories keep, in order, exactly the poses whose speed reaches the configured minimum and whose timestamp lies in the configured window counted from the first remaining source pose; zero start and end mean no window. Data is refused with ValueError exactly when one side has no pose left, and a start time alone keeps everything after it.", "quantifier": "every pair of trajectories, minimum speed and time window", "why_tests_cant": "Needs every speed profile and every window, including those leaving nothing.", "anchors": ["trajectopy_core/alignment/data.py:AlignmentData.setup", "trajectopy_core/settings/alignment.py:AlignmentPreprocessing"]}
{"id": "C71", "title": "Reading from a stream equals reading from a file", "statement": "A trajectory text gives the same trajectory when it is read from a string or stream and when it is read from a file.", "quantifier": "every text", "why_tests_cant": "All delimiters, line ends and layouts.", "anchors": ["trajectopy_core/input_output/trajectory_io.py:read_string", "trajectopy_core/input_output/trajectory_io.py:read_data", "trajectopy_core/trajectory.py:Trajectory.from_file"]}
{"id": "C72", "title": "Least squares adjustments minimise the weighted squared residuals", "statement": "The solution of a linear least squares adjustment has the smallest weighted sum of squared residuals of all parameter vectors, the returned observations and residuals belong to it, and a fitted straight line is the best of all lines.", "quantifier": "every design matrix, observation vector and diagonal weight matrix", "why_tests_cant": "Optimality compares with infinitely many other solutions.", "anchors": ["trajectopy_core/utils.py:least_squares", "trajectopy_core/utils.py:sparse_least_squares", "trajectopy_core/utils.py:fit_line_2d", "trajectopy_core/alignment/utils.py:least_squares"]}
{"id": "C73", "title": "Moving least squares smoothing", "statement": "Smoothing returns one position per input position after at most ten iterations, each of which projects every position on the best line through its nearest voxels; it stops as soon as the mean movement is at most the threshold, leaves straight trajectories unchanged and works for every trajectory.", "quantifier": "every list of positions, voxel size, number of neighbours and threshold", "why_tests_cant": "Iteration counts and degenerate geometries for all inputs.", "anchors": ["trajectopy_core/approximation/mls_approximation.py:mls_iterative", "trajectopy_core/approximation/mls_approximation.py:_mls_single"]}
{"id": "C74", "title": "Piecewise cubic approximation reproduces cubic data", "statement": "Data sampled from a constant or from one cubic polynomial are reproduced exactly by the piecewise cubic approximation, and evaluating the approximation at an observation gives its fitted value.", "quantifier": "every increasing function argument, polynomial, interval size and min_obs", "why_tests_cant": "Exactness for every polynomial and every division into intervals.", "anchors": ["trajectopy_core/approximation/cubic_approximation.py:CubicApproximation", "trajectopy_core/approximation/cubic_approximation.py:piecewise_cubic"]}
{"id": "C75", "title": "ATE result files round trip", "statement": "Writing the result of an absolute comparison to a file with to_file(mode='w') and reading it with from_file gives the same result: name, trajectory (times, positions, rotations, arc lengths, epsg), position deviations, directed deviations and rotation deviations, up to the twelve decimals of the file.", "quantifier": "every result with one deviation per pose, with and without rotations, every number of poses", "why_tests_cant": "the columns depend on which optional parts exist, and each value is located by its column name; tests compare one file", "anchors": ["trajectopy_core/evaluation/ate_result.py:ATEResult.to_file", "trajectopy_core/evaluation/ate_result.py:ATEResult.from_file", "trajectopy_core/evaluation/ate_result.py:ATEResult.to_dataframe", "trajectopy_core/evaluation/ate_result.py:ATEResult.columns"]}
{"id": "C76", "title": "Closed-form similarity transformation is optimal", "statement": "direct_helmert_transformation returns the translation, rotation and scale with the smallest weighted sum of squared distances between transformed sources and targets; if the targets are the sources after a similarity transformation, it returns that transformation.", "quantifier": "all point lists, weights, rotations, translations and scales", "why_tests_cant": "optimality is a claim over a continuum of competing transformations; tests compare with one known transformation", "anchors": ["trajectopy_core/alignment/direct.py:direct_helmert_transformation"]}
{"id": "C77", "title": "Closed-form lever arm and time shift are optimal", "statement": "direct_leverarm returns the lever arm and time shift with the smallest weighted sum of squares of predicted minus observed differences, and these as residuals; exact data give the true lever arm and time shift, if the platform-frame speed is not the same everywhere.", "quantifier": "all poses, attitudes, speeds, weights and competing lever arms and time shifts", "why_tests_cant": "optimality ranges over all parameters, and the stacking of rows by axis hides swapped columns for special attitudes", "anchors": ["trajectopy_core/alignment/direct.py:direct_leverarm", "trajectopy_core/alignment/direct.py:_leverarm_design_matrix", "trajectopy_core/alignment/utils.py:least_squares"]}
{"id": "C78", "title": "Closed-form time shift is optimal", "statement": "direct_timeshift returns the time shift with the smallest sum of squared differences between target and shifted source, in closed form the speed-difference product sum divided by the squared speed sum; a pure time shift is found whenever the platform moves.", "quantifier": "all positions and speeds, default, missing and given weights", "why_tests_cant": "the claim compares with all other time shifts", "anchors": ["trajectopy_core/alignment/direct.py:direct_timeshift"]}
{"id": "C79", "title": "Sensor rotation is optimal", "statement": "align_rotations returns the rotation that, applied to the source orientations as apply_alignment does, brings them as close as possible to the target orientations; a constant mounting rotation is recovered exactly.", "quantifier": "all orientation lists of the same length, all competing rotations", "why_tests_cant": "order of multiplication errors vanish for commuting rotations, which simple tests use", "anchors": ["trajectopy_core/alignment/direct.py:align_rotations", "trajectopy_core/rotationset.py:RotationSet.__sub__"]}
{"id": "C80", "title": "Linearisation with respect to the parameters", "statement": "The observation equations of the adjustment are aligned source minus target, epoch by epoch, and the design matrix holds their partial derivatives with respect to the eleven alignment parameters, three rows per epoch.", "quantifier": "all parameters, observation vectors, numbers of epochs and sets of enabled components", "why_tests_cant": "a wrong column or a swapped argument index leaves the estimate right for small angles and only slows convergence; tests see the final estimate", "anchors": ["trajectopy_core/alignment/estimation.py:AlignmentEstimator._get_design_matrix", "trajectopy_core/alignment/egrad_interface.py", "trajectopy_core/alignment/equations.py"]}
{"id": "C81", "title": "Linearisation with respect to the observations", "statement": "The sparse condition matrix of the adjustment holds the partial derivatives of the observation equations with respect to every observation, in the layout of the observation vector, for every combination of lever arm and time shift.", "quantifier": "all parameters, observation vectors, numbers of epochs and sets of enabled components", "why_tests_cant": "index arithmetic for the four layouts; wrong positions only change weights", "anchors": ["trajectopy_core/alignment/estimation.py:AlignmentEstimator._get_condition_matrix", "trajectopy_core/alignment/estimation.py:AlignmentEstimator._get_condition_stack"]}
{"id": "C82", "title": "Every iteration solves the linearised problem optimally", "statement": "One iteration of the adjustment gives the changes of the enabled parameters and the residuals that close the linearised observation equations with the smallest sum of squared residuals weighted with the variances; parameters that are not estimated stay as they are.", "quantifier": "all data, variances, enabled parameters, states of the iteration and all competing changes and residuals", "why_tests_cant": "optimality is a claim over a continuum of competitors", "anchors": ["trajectopy_core/alignment/estimation.py:AlignmentEstimator._estimate_parameters", "trajectopy_core/alignment/estimation.py:AlignmentEstimator._compute_parameter_deltas"]}
{"id": "C83", "title": "The iteration comes to rest only at solutions", "statement": "If an iteration of the adjustment changes nothing, the adjusted observations satisfy the observation equations exactly and the residuals are orthogonal, weighted with the variances, to every change the equations allow.", "quantifier": "all data and states of the iteration", "why_tests_cant": "ranges over all fixed points of a nonlinear iteration", "anchors": ["trajectopy_core/alignment/estimation.py:AlignmentEstimator._estimate_parameters"]}
{"id": "C84", "title": "Exact data are left alone", "statement": "If the initial values satisfy the observation equations exactly and the data determine the parameters, the estimation returns the initial values, reports convergence after one iteration and has zero residuals, also with variance estimation.", "quantifier": "all exact data sets, thresholds and enabled parameters", "why_tests_cant": "tests use a few exact data sets and the default of no variance estimation", "anchors": ["trajectopy_core/alignment/estimation.py:AlignmentEstimator.estimate_parameters"]}
{"id": "C85", "title": "Variance factor", "statement": "The variance factor is the weighted squared sum of the residuals divided by the redundancy; variances multiplied by it have the factor one, and multiplying all variances by a positive number changes neither residuals nor parameters.", "quantifier": "all residuals, variances, factors and states of the iteration", "why_tests_cant": "scaling laws over all positive factors", "anchors": ["trajectopy_core/alignment/estimation.py:AlignmentEstimator.variance_factor", "trajectopy_core/alignment/estimation.py:AlignmentEstimator.redundancy"]}
{"id": "C86", "title": "A similarity is recovered", "statement": "If the target trajectory is the image of the source under a rotation, a scale and a translation, and the settings estimate this similarity only, the alignment ends without an error, reports convergence and returns the translation, the scale and angles of that rotation.", "quantifier": "all trajectories with positions not in one plane, all rotations except at the singularity of the angles, all positive scales, translations, standard deviations and thresholds", "why_tests_cant": "a continuum of transformations; the result depends on initial values, linearisation, solver and stopping rule together", "anchors": ["trajectopy_core/alignment/estimation.py:AlignmentEstimator.init_parameters", "trajectopy_core/alignment/estimation.py:AlignmentEstimator.estimate_parameters", "trajectopy_core/alignment/direct.py"]}
{"id": "C87", "title": "A lever arm and a time shift are recovered", "statement": "If the target positions are those of the source moved by a lever arm in the frame of the platform and a time shift along the speed, and the settings estimate these and no similarity, the alignment ends without an error, reports convergence and returns both exactly, whichever components are enabled.", "quantifier": "all poses, lever arms, time shifts, enabled components, standard deviations and thresholds for which the data can tell them apart", "why_tests_cant": "a continuum of transformations and four layouts of the observations", "anchors": ["trajectopy_core/alignment/estimation.py:AlignmentEstimator.init_parameters", "trajectopy_core/alignment/estimation.py:AlignmentEstimator.estimate_parameters", "trajectopy_core/alignment/direct.py"]}
{"id": "C88", "title": "Comparing trajectories", "statement": "t == u answers True for trajectories that agree and False for all others: it never raises, does not depend on the order of the operands, and needs the same number of poses, the same times and the same orientations.", "quantifier": "all pairs of trajectories", "why_tests_cant": "needs all pairs; a test compares a few that are equal or clearly different", "anchors": ["trajectopy_core/trajectory.py:Trajectory.__eq__"]}
{"id": "C89", "title": "Comparing results", "statement": "Two alignment results, or two relative comparisons, are equal if their contents agree and unequal otherwise; == answers True or False.", "quantifier": "all pairs of results", "why_tests_cant": "needs all pairs of results", "anchors": ["trajectopy_core/alignment/result.py:AlignmentResult.__eq__", "trajectopy_core/evaluation/rpe_result.py:RPEResult.__eq__"]}
{"id": "C90", "title": "The summary of a relative comparison", "statement": "The summary (property_dict) has one line with the average position drift, and one with the average orientation drift if there is one, for every compared distance.", "quantifier": "all relative comparisons, any number of distances, any way of displaying numbers", "why_tests_cant": "lines get lost only for particular combinations of distances", "anchors": ["trajectopy_core/evaluation/rpe_result.py:RPEResult.property_dict"]}
{"id": "C91", "title": "Reading ROS bags", "statement": "Reading a bag gives one trajectory per topic with pose messages, with exactly the poses of that topic in the order of recording; messages of other types and of other topics have no influence.", "quantifier": "all bags: any number, order and interleaving of topics and messages", "why_tests_cant": "interleavings of messages are unbounded", "anchors": ["trajectopy_core/input_output/rosbag.py:read_rosbag_topics", "trajectopy_core/input_output/rosmsg.py"]}
{"id": "C92", "title": "Exporting to KML", "statement": "Exporting a trajectory writes a line through its positions in the order of time and does not change the trajectory.", "quantifier": "all trajectories, any conversion and rounding", "why_tests_cant": "needs all paths, in particular those that visit a place twice", "anchors": ["trajectopy_core/kml.py:create_kml"]}
{"id": "C93", "title": "Estimating an alignment from trajectories", "statement": "estimate_alignment of a trajectory and a copy of it moved by a similarity (or by a lever arm and a time shift) converges, and applying its result moves every trajectory in the same way; rotation parameters are estimated exactly when they are asked for and both trajectories have orientations, and are then optimal.", "quantifier": "all trajectories that determine the parameters, all settings without variance estimation, all solvers", "why_tests_cant": "the whole chain of matching, initial values, iteration and application for all geometries", "anchors": ["trajectopy_core/alignment/estimation.py:estimate_alignment", "trajectopy_core/alignment/estimation.py:AlignmentEstimator", "trajectopy_core/alignment/data.py:AlignmentData", "trajectopy_core/trajectory.py:Trajectory.apply_alignment"]}
{"id": "C94", "title": "The trajectory error of exact copies is zero", "statement": "ate of two trajectories with the same times that differ exactly by a similarity, a lever arm and a time shift, or a sensor mounting, is zero: all deviations, their mean, root mean square and maximum, and the remaining rotations are the identity.", "quantifier": "all trajectories that determine the parameters", "why_tests_cant": "needs the composition of matching, alignment and comparison for all geometries", "anchors": ["trajectopy_core/evaluation/metrics.py:ate"]}
{"id": "C95", "title": "Orientations under a transformation with a scale", "statement": "Transforming or aligning a trajectory with a similarity turns every orientation by the rotation of the similarity, whatever its scale is.", "quantifier": "all trajectories with orientations, all similarities with a positive scale", "why_tests_cant": "depends on how a matrix that is not a rotation matrix is converted, for all rotations and scales", "anchors": ["trajectopy_core/trajectory.py:Trajectory.apply_transformation", "trajectopy_core/trajectory.py:Trajectory.apply_alignment"]}
{"id": "C96", "title": "The curve of the cumulative probability", "statement": "The plotted curve passes, for every deviation, through the fraction of deviations that are not larger, and ends at one.", "quantifier": "all lists of deviations", "why_tests_cant": "must hold for every list of deviations, including ties", "anchors": ["trajectopy_core/plotting/mpl/deviation_plot.py:plot_position_edf", "trajectopy_core/plotting/plotly/line_plots.py:render_dev_edf"]}
{"id": "C97", "title": "Colour bars of deviations", "statement": "The bounds of a colour bar are ordered; every coloured value lies between them and is the deviation itself unless that lies outside; without a sigma factor nothing is clipped; every tick lies between the bounds and carries its own value, and both bounds have a tick unless zero is marked.", "quantifier": "all non-empty lists of deviations, all sigma factors, all positive numbers of steps", "why_tests_cant": "must hold for all data and settings", "anchors": ["trajectopy_core/plotting/mpl/deviation_plot.py:_setup_cbar_params"]}
{"id": "C98", "title": "Errors of orientations", "statement": "The combined orientation deviation of a pose is the angle of the rotation between the two orientations, between 0 and pi; it is zero exactly where the orientations agree, does not change when the trajectories are exchanged or when both are turned in space and in the body frame, and its statistics are ordered: minimum, mean, root mean square, maximum; without orientations there are no orientation errors.", "quantifier": "all pairs of trajectories of one length, with and without orientations, all common rotations", "why_tests_cant": "must hold for all orientations, including half turns, and for all lengths", "anchors": ["trajectopy_core/evaluation/ate_result.py:ATEResult", "trajectopy_core/rotationset.py:RotationSet.rotangle", "trajectopy_core/evaluation/comparison.py:compare_trajectories_absolute"]}
{"id": "C99", "title": "Absolute errors are distances", "statement": "The mean, root mean square and maximum of the position errors and of the orientation errors satisfy the triangle inequality: comparing A with C never gives more than comparing A with B plus B with C.", "quantifier": "all triples of trajectories of one length", "why_tests_cant": "a law over three arbitrary trajectories", "anchors": ["trajectopy_core/evaluation/ate_result.py:ATEResult.pos_ate", "trajectopy_core/evaluation/ate_result.py:ATEResult.rot_ate", "trajectopy_core/evaluation/comparison.py:compare_trajectories_absolute"]}
{"id": "C100", "title": "Deviations are drawn where they occur", "statement": "In every plot of deviations each deviation is drawn at the time, arc length or position of its own pose, and results without orientations can be plotted.", "quantifier": "all comparison results, all deviations, all orders in which poses are stored", "why_tests_cant": "depends on the order of the stored poses, for all trajectories", "anchors": ["trajectopy_core/report/data.py:ATEReportData", "trajectopy_core/plotting/mpl/deviation_plot.py:plot_deviations", "trajectopy_core/plotting/plotly/line_plots.py:render_dev_comb_plot"]}
{"id": "C101", "title": "The table of an alignment", "statement": "The table of an alignment lists exactly the enabled parameters in their order, each with its value and its standard deviation written with the unit of the parameter: metres, degrees, milliseconds, parts per million.", "quantifier": "all sets of alignment parameters, all enabled subsets, all values", "why_tests_cant": "depends on units, subsets and on the text of every value", "anchors": ["trajectopy_core/plotting/plotly/tables.py:render_alignment_table", "trajectopy_core/alignment/parameters.py:Parameter", "trajectopy_core/alignment/parameters.py:AlignmentParameters.to_string_list"]}
{"id": "C102", "title": "The correlation table of an alignment", "statement": "The correlation table is labelled with the shown parameters, symmetric, empty on the diagonal and where a variance is zero, and holds the covariance divided by both standard deviations elsewhere, which lies between -1 and 1.", "quantifier": "all parameter sets, all enabled subsets, all covariance matrices", "why_tests_cant": "an algebraic law over all covariance matrices", "anchors": ["trajectopy_core/report/alignment.py:build_correlation_dataframe", "trajectopy_core/alignment/parameters.py:AlignmentParameters.get_covariance_matrix"]}
{"id": "C103", "title": "Trajectories as tables", "statement": "A trajectory exported as a table has one row per pose, holding the time, arc length, position, orientation and speed of that pose, sorted by the chosen column (by default the sorting of the trajectory); an unknown column is refused; the data rate is the number of intervals per second between the earliest and the latest pose.", "quantifier": "all trajectories, all columns, all storage orders", "why_tests_cant": "rows must stay together for all lengths and orders", "anchors": ["trajectopy_core/trajectory.py:Trajectory.to_dataframe", "trajectopy_core/trajectory.py:Trajectory.data_rate"]}
{"id": "C104", "title": "Rough time offsets", "statement": "The rough time offset of two trajectories is a median of the time differences of the poses paired by position; if the reference visits every test position exactly once and d seconds later, the offset is d for every distance limit; if nothing is near enough it is an error.", "quantifier": "all pairs of trajectories, all distance limits, all offsets", "why_tests_cant": "recovering an offset must hold for all tracks and offsets", "anchors": ["trajectopy_core/matching.py:rough_timestamp_matching", "trajectopy_core/matching.py:match_trajectories_spatial"]}
{"id": "C105", "title": "Trajectory reports leave the trajectories alone", "statement": "Rendering a report of trajectories does not change the trajectories.", "quantifier": "all lists of trajectories and report settings", "why_tests_cant": "a frame condition over all inputs and settings", "anchors": ["trajectopy_core/report/trajectory.py:render_one_line_plots", "trajectopy_core/plotting/plotly/scatter_plots.py:render_trajectories_mapbox"]}
{"id": "C106", "title": "Position plots draw the chosen axes", "statement": "A position plot shows every trajectory under its name, in sorted order, with the coordinates named by the chosen axis letters; other letters or a wrong number of axes are refused; a map shows latitudes as latitudes and longitudes as longitudes.", "quantifier": "all lists of trajectories, all axis orders", "why_tests_cant": "depends on settings and on all trajectories", "anchors": ["trajectopy_core/plotting/plotly/scatter_plots.py:render_trajectories", "trajectopy_core/plotting/plotly/scatter_plots.py:setup_pos_axis_indices", "trajectopy_core/plotting/plotly/scatter_plots.py:render_trajectories_mapbox"]}
{"id": "C107", "title": "Bar charts of errors", "statement": "A bar chart shows six statistics per result, in the order given by minimum, mean, root mean square and maximum; orientation bars appear only for results with orientations and in degrees; every group of bars is labelled with the name of its test trajectory and different results have different groups.", "quantifier": "all lists of results, all names", "why_tests_cant": "must hold for all deviations and all names", "anchors": ["trajectopy_core/plotting/plotly/bar_plots.py:to_pos_metrics_df", "trajectopy_core/plotting/plotly/bar_plots.py:to_rot_metrics_df", "trajectopy_core/report/data.py:ATEReportData.short_name"]}
{"id": "C108", "title": "Colour bars of reports", "statement": "The colour bar of a report starts at the smallest value and ends at the mean plus scatter_max_std standard deviations, or at the largest value if that is less.", "quantifier": "all lists of values, all factors", "why_tests_cant": "a law over all value lists", "anchors": ["trajectopy_core/plotting/plotly/scatter_plots.py:get_marker_dict", "trajectopy_core/settings/report.py:ReportSettings"]}
{"id": "C109", "title": "Contents of reports", "statement": "A report of one or several results shows every plot that its results allow exactly once, orientation plots exactly if there are orientations, detailed plots exactly if they are asked for, and the error of positions in the chosen unit; without any result it is an error; a result without orientations shows no orientation error.", "quantifier": "all results with and without orientations, all settings", "why_tests_cant": "all combinations of inputs and settings", "anchors": ["trajectopy_core/report/single.py:render_single_report", "trajectopy_core/report/single.py:render_one_line_plots", "trajectopy_core/report/multi.py:render_multi_report"]}
{"id": "C110", "title": "Report files", "statement": "Showing or writing a report stores its text in the given file, makes a missing directory, and touches no other file; without a path a temporary name is used.", "quantifier": "all file systems, paths and texts", "why_tests_cant": "all paths and all states of the disk", "anchors": ["trajectopy_core/report/utils.py:show_report", "trajectopy_core/report/utils.py:write_report"]}
{"id": "C111", "title": "Bars of several results", "statement": "In a bar plot of several results every result has one bar for each of its six statistics, whose height is that statistic in the chosen unit, and no two bars overlap, for any number of results.", "quantifier": "all numbers of results, all deviations", "why_tests_cant": "a geometric law for every number of results", "anchors": ["trajectopy_core/plotting/mpl/deviation_plot.py:plot_bars"]}
{"id": "C112", "title": "Histograms count everything", "statement": "A histogram of deviations counts every deviation once, and a normalised histogram sums to one.", "quantifier": "all lists of deviations", "why_tests_cant": "a counting law over all lists", "anchors": ["trajectopy_core/plotting/mpl/deviation_plot.py:_norm_hist"]}
{"id": "C113", "title": "Equal axes", "statement": "With equal axes the three axes have the same extent, keep their centres, still show everything, and are no larger than the largest axis.", "quantifier": "all axis limits", "why_tests_cant": "a geometric law over all limits", "anchors": ["trajectopy_core/plotting/mpl/trajectory_plot.py:set_aspect_equal_3d"]}
{"id": "C114", "title": "Figures of relative errors", "statement": "A figure of relative errors draws each result once, with its own values and in the units written at the axes; results over distances and over times are kept apart.", "quantifier": "all lists of results", "why_tests_cant": "all mixtures of results", "anchors": ["trajectopy_core/plotting/plotly/multi_line_plots.py:render_rpe", "trajectopy_core/plotting/mpl/deviation_plot.py:plot_rpe"]}
{"id": "C115", "title": "Biases", "statement": "The X, Y and Z biases of a comparison are the components of the mean of reference minus test and never longer than the absolute error; moving the test by the bias removes the bias and is the movement with the smallest root mean square error. With orientations, a test displaced by the same vector in the frame of every reference pose has this vector as its along-track and cross-track biases.", "quantifier": "all pairs of trajectories, all movements", "why_tests_cant": "an optimality over all movements of all trajectories", "anchors": ["trajectopy_core/evaluation/ate_result.py:ATEResult.pos_bias_x", "trajectopy_core/evaluation/ate_result.py:ATEResult.pos_bias_along", "trajectopy_core/evaluation/comparison.py:compare_trajectories_absolute"]}
{"id": "C116", "title": "Spatial sorting keeps the direction of travel", "statement": "If the points are driven anticlockwise around the origin, so are the sorted points, and the same for clockwise.", "quantifier": "all point sets and triangulations", "why_tests_cant": "all tracks and start points", "anchors": ["trajectopy_core/sorting.py:sort", "trajectopy_core/sorting.py:detect_direction"]}
{"id": "C117", "title": "Spatial sorting follows the track", "statement": "If the minimum spanning tree of the points is a path, the sorted points follow this path, starting at the highest point and going on from the other end; a point without a place in the triangulation is inserted between its two nearest neighbours.", "quantifier": "all point sets whose spanning tree is a path, all searches", "why_tests_cant": "needs every path and every numbering of the points", "anchors": ["trajectopy_core/sorting.py:_mst_sorting", "trajectopy_core/sorting.py:_insert_point", "trajectopy_core/sorting.py:_begin_with"]}
{"id": "C118", "title": "Covariance of the estimated parameters", "statement": "After an adjustment the covariance matrix of the estimated parameters is what the variances of the observations become when carried through the linearised estimation: the entry of two parameters is the sum, over all observations, of the variance times the responses of both parameters to this observation. It is symmetric, the reported variances are its diagonal, every combination of parameters has a positive variance, and multiplying all variances by a factor multiplies it by this factor.", "quantifier": "all data with positive variances that determine the parameters, all settings, all numbers of epochs", "why_tests_cant": "all data and all sets of estimated parameters; a test sees one matrix", "anchors": ["trajectopy_core/alignment/estimation.py:AlignmentEstimation._compute_parameter_variances", "trajectopy_core/alignment/parameters.py:ParameterSet.set_covariance_matrix"]}
{"id": "C119", "title": "Histograms show what their legends say", "statement": "In a figure of histograms each histogram counts the deviations of the component its legend entry names, in the unit written on the axis.", "quantifier": "all comparison results, all settings of the figure, every automatic choice of bins", "why_tests_cant": "the legend is attached by position; a test would have to look at the picture for every combination of settings", "anchors": ["trajectopy_core/plotting/mpl/deviation_plot.py:plot_position_hist", "trajectopy_core/plotting/mpl/deviation_plot.py:plot_rotation_hist", "trajectopy_core/plotting/mpl/deviation_plot.py:plot_compact_hist", "trajectopy_core/plotting/plotly/histograms.py:render_pos_devs", "trajectopy_core/plotting/plotly/histograms.py:render_rot_devs"]}
{"id": "C120", "title": "Scatter plots of deviations", "statement": "A scatter plot of deviations draws every pose at its own position, coloured by its own deviation in the unit of the colour bar, and follows the settings of the colour bar and of the axes.", "quantifier": "all comparison results that are not empty, all plot settings", "why_tests_cant": "all results and settings; a test compares one picture", "anchors": ["trajectopy_core/plotting/mpl/deviation_plot.py:scatter_deviations", "trajectopy_core/plotting/mpl/deviation_plot.py:_colored_scatter_plot"]}
{"id": "C121", "title": "Labels of axes", "statement": "The label of an axis names the quantity and the unit of what is drawn along it, for every trajectory of the figure.", "quantifier": "all lists of trajectories, all sortings and all reference systems", "why_tests_cant": "all mixtures of sortings and reference systems", "anchors": ["trajectopy_core/plotting/utils.py:derive_xlabel_from_sortings", "trajectopy_core/plotting/utils.py:get_axis_label", "trajectopy_core/plotting/mpl/trajectory_plot.py:get_axis_label"]}
{"id": "C122", "title": "Curves of trajectories", "statement": "Figures of trajectories draw every pose at its time or arc length with its own coordinates and angles, and connect the poses in the current sorting of the trajectory.", "quantifier": "all lists of consistent trajectories, with and without orientations, in any stored order", "why_tests_cant": "all orders in which poses can be stored", "anchors": ["trajectopy_core/plotting/mpl/trajectory_plot.py:plot_pos", "trajectopy_core/plotting/mpl/trajectory_plot.py:plot_xyz", "trajectopy_core/plotting/mpl/trajectory_plot.py:plot_rpy", "trajectopy_core/plotting/plotly/multi_line_plots.py:render_rot_plot"]}
{"id": "C123", "title": "Smoothing and reduction of deviations", "statement": "Reducing deviations returns moving averages at the abscissae they belong to, in order, leaves a position out only if an earlier one shows the same, keeps constant data constant and thins out data that do not change by more than the resolution.", "quantifier": "all data, abscissae, resolutions and filter sizes", "why_tests_cant": "every length of data relative to the filter and every repetition pattern; a test uses one series", "anchors": ["trajectopy_core/utils.py:round_to_precision"]}
{"id": "C124", "title": "Completed laps", "statement": "A lap counts as complete if and only if its ends are closer than the threshold; moving, turning or reversing the path does not change the answer.", "quantifier": "all paths, thresholds and rigid motions", "why_tests_cant": "all paths and all motions", "anchors": ["trajectopy_core/sorting.py:complete_lap_dist"]}
{"id": "C125", "title": "Matrix of a cross product", "statement": "The skew-symmetric matrix of a vector maps every vector to the cross product, is linear in the vector and turns with it.", "quantifier": "all vectors and rotations", "why_tests_cant": "algebraic identities over all vectors", "anchors": ["trajectopy_core/utils.py:skew_symmetric_matrix"]}
{"id": "C126", "title": "Summary of an absolute comparison", "statement": "The summary of an absolute comparison shows under every label the statistic that the label names, in the unit that the label names; orientations that were not compared are shown as a dash.", "quantifier": "all comparison results with and without orientations", "why_tests_cant": "thirty-four entries for every possible list of deviations", "anchors": ["trajectopy_core/evaluation/ate_result.py:ATEResult.property_dict"]}
{"id": "C127", "title": "Groups of alignment parameters", "statement": "The transformation part and the mounting part of a set of alignment parameters consist of the parameters of the set, in order, setting parameters through a part changes the set, and the covariance matrices of the set and of its parts agree with the variances.", "quantifier": "all parameter sets, with every combination of enabled parameters and variances", "why_tests_cant": "every combination of enabled parameters and every sequence of assignments through a part", "anchors": ["trajectopy_core/alignment/parameters.py:AlignmentParameters.helmert", "trajectopy_core/alignment/parameters.py:AlignmentParameters.leverarm", "trajectopy_core/alignment/parameters.py:HelmertTransformation.translation"]}
{"id": "C128", "title": "Searching points in voxels", "statement": "Searching the voxels around a position within a radius returns for every position a set of voxels without repetitions whose points are the points of the cloud within the radius.", "quantifier": "all point clouds, voxel sizes, positions and radii", "why_tests_cant": "every cloud and every radius; a test sees one cloud", "anchors": ["trajectopy_core/approximation/voxelizer.py:Voxelizer.ball_query", "trajectopy_core/approximation/voxelizer.py:Voxelizer.points_from_voxel_set"]}
{"id": "C129", "title": "Repeating and combining filtering steps", "statement": "Cropping twice is cropping to the common part of both spans, in any order; matching timestamps again, or the other way round, changes nothing; intersecting again changes nothing; interpolating at the timestamps a trajectory already has changes neither poses nor arc lengths, and interpolating at more timestamps first makes no difference to the poses at the timestamps asked for afterwards.", "quantifier": "all consistent trajectories, spans, tolerances and requested timestamps", "why_tests_cant": "every combination of steps in every order", "anchors": ["trajectopy_core/trajectory.py:Trajectory.crop", "trajectopy_core/trajectory.py:Trajectory.match_timestamps", "trajectopy_core/trajectory.py:Trajectory.intersect", "trajectopy_core/trajectory.py:Trajectory.interpolate"]}
{"id": "C130", "title": "Order of merging", "statement": "Merging trajectories without common timestamps gives the same trajectory whatever the order of the trajectories is, and merging some of them first and the result with the rest gives the same as merging all of them at once.", "quantifier": "all non-empty lists of consistent trajectories without common timestamps, all permutations and all splits of the list", "why_tests_cant": "every order and grouping of any number of trajectories", "anchors": ["trajectopy_core/merging.py:merge_trajectories"]}
{"id": "C131", "title": "Matching again", "statement": "Matching trajectories that are already matched, by nearest positions or times without ties or by interpolation, with the same settings changes nothing, so the metrics of matched trajectories are those of the trajectories they come from.", "quantifier": "all pairs of consistent trajectories, tolerances and nearest-neighbour searches; for interpolation all strictly increasing timestamps with at least two common poses", "why_tests_cant": "every pair of trajectories and every behaviour of the search among equally near points", "anchors": ["trajectopy_core/matching.py:match_trajectories", "trajectopy_core/evaluation/metrics.py:ate"]}
{"id": "C132", "title": "Frame of the data", "statement": "What is left between two point sets after the closed-form alignment does not depend on the frames the points are given in: moving the sources by any similarity or mirror image leaves the weighted sum of squared distances unchanged, moving the targets with scale s multiplies it by the square of s, and the order of the pairs does not matter.", "quantifier": "all point pairs, non-negative weights, similarities and mirror images with a scale other than zero, and behaviours of the singular value decomposition", "why_tests_cant": "a statement about a minimum over all similarities for every point set and every movement of it", "anchors": ["trajectopy_core/alignment/direct.py:direct_helmert_transformation"]}
{"id": "C133", "title": "Moving and selecting commute", "statement": "Transforming or aligning a trajectory and then selecting poses (by index, by time span, by matching timestamps or by intersecting) gives the same trajectory or the same exception as selecting first; interpolating and merging give the same timestamps and positions, and merging the same orientations.", "quantifier": "all consistent trajectories, transformation matrices, alignment parameters, index lists, time spans, timestamp lists and gap tolerances", "why_tests_cant": "an equality of two programs for every trajectory, transformation and selection", "anchors": ["trajectopy_core/trajectory.py:Trajectory.apply_transformation", "trajectopy_core/trajectory.py:Trajectory.apply_alignment", "trajectopy_core/trajectory.py:Trajectory.apply_index", "trajectopy_core/trajectory.py:Trajectory.crop", "trajectopy_core/trajectory.py:Trajectory.interpolate", "trajectopy_core/merging.py:merge_trajectories"]}
{"id": "C134", "title": "Operations that leave no pose", "statement": "An operation that selects poses gives an empty trajectory if it selects none, moving an empty trajectory gives an empty trajectory, and merging ignores empty trajectories; if one of them raises instead, the trajectory it was called on is still consistent.", "quantifier": "all consistent trajectories with and without orientations, all selections, transformations, alignments and lists of trajectories to merge, with the version of scipy in poetry.lock", "why_tests_cant": "depends on the one selection that keeps nothing and on the state left behind by an exception", "anchors": ["trajectopy_core/trajectory.py:Trajectory.apply_index", "trajectopy_core/trajectory.py:Trajectory.crop", "trajectopy_core/trajectory.py:Trajectory.match_timestamps", "trajectopy_core/trajectory.py:Trajectory.intersect", "trajectopy_core/trajectory.py:Trajectory.apply_transformation", "trajectopy_core/merging.py:merge_trajectories", "trajectopy_core/rotationset.py:RotationSet"]}
{"id": "C135", "title": "Interrupted writing of trajectory files", "statement": "If writing a trajectory file is interrupted at any point, a file that can still be read holds a beginning of the written poses with the right name and coordinate system and the written values; an incomplete file is noticed when it is read, and what the file held before is not lost or changed before the new content is complete.", "quantifier": "all consistent trajectories with a name on one line, all points at which writing can stop (before the file is opened and after every character), both modes, all earlier contents", "why_tests_cant": "there is one crash point per written character and the result depends on which characters were cut off", "anchors": ["trajectopy_core/trajectory.py:Trajectory.to_file", "trajectopy_core/trajectory.py:Trajectory.from_file", "trajectopy_core/input_output/trajectory_io.py:read_data"]}
{"id": "C136", "title": "Origin and unit of time", "statement": "Reading the same recordings on another clock, with another origin or another unit of time, changes nothing but the times: cropping, selecting common time stamps, intersecting, interpolating, constructing, merging and matching give the same poses when bounds and tolerances are expressed on that clock, a relative comparison over time gives the same drifts expressed in the new unit, and the estimated alignment, the absolute error and the relative error do not depend on the origin of time.", "quantifier": "all trajectories, all origins, all positive factors between the units, all settings, matching methods and requests, including those that raise", "why_tests_cant": "an absolute time hidden anywhere in a computation shows up only for particular origins, and a test has one clock", "anchors": ["trajectopy_core/trajectory.py:Trajectory.crop", "trajectopy_core/trajectory.py:Trajectory.intersect", "trajectopy_core/trajectory.py:Trajectory.interpolate", "trajectopy_core/matching.py:match_trajectories", "trajectopy_core/merging.py:merge_trajectories", "trajectopy_core/evaluation/comparison.py:compare_trajectories_relative", "trajectopy_core/evaluation/metrics.py:ate", "trajectopy_core/evaluation/metrics.py:rpe", "trajectopy_core/alignment/estimation.py:estimate_alignment"]}
{"id": "C137", "title": "Exchanging test and reference", "statement": "Comparing the reference with the test instead of the test with the reference gives the opposite position deviations: every statistic of the position error and the RMS along every axis is the same and the biases change their sign. A relative comparison over the same distances or times gives the same pairs with the same drifts, or the same exception, and only its name differs.", "quantifier": "all consistent trajectories of equal length, with and without orientations, all settings of the relative comparison", "why_tests_cant": "the symmetry relates two runs of the comparison for every input, and it hinges on inverses of arbitrary rigid motions", "anchors": ["trajectopy_core/evaluation/comparison.py:compare_trajectories_absolute", "trajectopy_core/evaluation/comparison.py:compare_trajectories_relative", "trajectopy_core/evaluation/ate_result.py:ATEResult"]}
{"id": "C138", "title": "Comparing part of the poses", "statement": "Selecting the same poses of both trajectories and comparing them gives the deviations of the selected poses; taking the poses in another order changes no statistic of the position error, of its components or of the orientation error.", "quantifier": "all consistent trajectories of equal length, all selections by index or mask, all orders of the poses", "why_tests_cant": "there are as many orders as permutations and as many selections as subsets", "anchors": ["trajectopy_core/evaluation/comparison.py:compare_trajectories_absolute", "trajectopy_core/trajectory.py:Trajectory.apply_index", "trajectopy_core/evaluation/ate_result.py:ATEResult"]}
{"id": "C139", "title": "Unit of length", "statement": "Expressing two recordings in another unit of length (positions, arc lengths and speeds multiplied by a positive factor, limits of distance too) changes no decision: the same poses are selected, matched and paired, with the same exceptions, and constructing, interpolating and merging give the converted trajectory. Deviations of position and all their statistics are multiplied by the factor, deviations of orientation stay, drifts over distances stay (position) or are divided (orientation), and drifts over time are multiplied (position) or stay (orientation).", "quantifier": "all trajectories, positive factors, selections, matching methods and settings of the comparisons", "why_tests_cant": "a unit test compares a few numbers in one unit; a threshold or square root that breaks the scaling shows only for some inputs and factors", "anchors": ["trajectopy_core/trajectory.py:Trajectory", "trajectopy_core/matching.py:match_trajectories", "trajectopy_core/merging.py:merge_trajectories", "trajectopy_core/evaluation/comparison.py:compare_trajectories_absolute", "trajectopy_core/evaluation/comparison.py:compare_trajectories_relative", "trajectopy_core/evaluation/ate_result.py:ATEResult", "trajectopy_core/evaluation/metrics.py:rpe"]}
{"id": "C140", "title": "Interrupted writing of result files", "statement": "If writing a relative or absolute result to a file is interrupted at any moment, a reader afterwards gets the old content, the new result, or an error, and never a part of the result as if it were whole, nor a value that was not written.", "quantifier": "all results, contents of the file before, and points at which writing stops", "why_tests_cant": "a test would have to stop the process between any two characters; the harmful points depend on where a row or number happens to end", "anchors": ["trajectopy_core/evaluation/rpe_result.py:RPEResult.to_file", "trajectopy_core/evaluation/rpe_result.py:RPEResult.from_file", "trajectopy_core/evaluation/ate_result.py:ATEResult.to_file", "trajectopy_core/evaluation/ate_result.py:ATEResult.from_file"]}
{"id": "C141", "title": "Files of alignment results", "statement": "A result of an alignment saved to a new file is read back with its name, its parameters with their flags and covariances up to half a unit of the fifteenth decimal, its sensor rotation exactly, and the settings that belong to them; if saving is interrupted at any moment, or done to a file that already holds a result, a reader gets the old result, the new one, or an error, and nothing is lost.", "quantifier": "all results, names, contents of the file before, and points at which writing stops", "why_tests_cant": "a test would have to stop the process between any two characters; a missing flag counts as switched on, which shows only at some points and for some results", "anchors": ["trajectopy_core/alignment/result.py:AlignmentResult.to_file", "trajectopy_core/alignment/result.py:AlignmentResult.from_file", "trajectopy_core/alignment/parameters.py:AlignmentParameters.to_file", "trajectopy_core/alignment/parameters.py:AlignmentParameters.from_file", "trajectopy_core/alignment/parameters.py:SensorRotationParameters.to_file", "trajectopy_core/alignment/parameters.py:SensorRotationParameters.from_file"]}
{"id": "C142", "title": "Settings files as text", "statement": "Settings saved to a file are read from its characters as they were saved, whatever texts and numbers they hold; if saving is interrupted at any moment, the file is as it was, holds all settings, or is refused by every reader: settings that were never saved are not read.", "quantifier": "all settings classes and objects, contents of the file before, and points at which writing stops", "why_tests_cant": "a test would have to stop the process between any two characters, for every text with quotation marks, braces and escapes", "anchors": ["trajectopy_core/settings/base.py:Settings.to_file", "trajectopy_core/settings/base.py:Settings.to_json", "trajectopy_core/settings/base.py:Settings.from_file"]}
{"id": "C143", "title": "Merging and cropping in either order", "statement": "Cropping the merged trajectory to a span of time gives the same timestamps, positions and orientations as merging the cropped trajectories.", "quantifier": "all lists of trajectories whose timestamps are distinct, bounds, and both ways of cropping (keeping what is inside or what is outside)", "why_tests_cant": "the two orders pass through different intermediate trajectories for every list and span; tests compare a few", "anchors": ["trajectopy_core/merging.py:merge_trajectories", "trajectopy_core/trajectory.py:Trajectory.crop"]}
{"id": "C144", "title": "Smoothing and what was smoothed before", "statement": "Smoothing positions by moving least squares gives the same result, or raises the same exception, whatever was smoothed before in the same process, and keeps nothing of the positions in memory afterwards.", "quantifier": "all histories of calls with any points and settings, successful or not, all placements of objects in memory and orders of iterating over sets", "why_tests_cant": "the lines are cached for the whole process by object identity; a test sees one history and one placement in memory", "anchors": ["trajectopy_core/approximation/mls_approximation.py:cached_line_approximator", "trajectopy_core/approximation/mls_approximation.py:mls_single", "trajectopy_core/approximation/mls_approximation.py:mls_iterative"]}
{"id": "C145", "title": "Names of trajectories", "statement": "A trajectory created without a name gets a name that no other trajectory has; a name that is given is kept.", "quantifier": "all histories of creations in a process, with and without names, successful or not", "why_tests_cant": "the automatic names come from a counter of the class; every history of constructor calls counts", "anchors": ["trajectopy_core/trajectory.py:Trajectory.__init__"]}
{"id": "C146", "title": "Results of alignments and settings objects", "statement": "An alignment without settings is made with the defaults, and a result says by which settings it was made, whatever is done with settings and results before or afterwards.", "quantifier": "all histories of creating settings, aligning with or without settings, and assigning to the fields of settings and of results", "why_tests_cant": "settings are shared between calls, arguments and results as objects; tests look at a single call", "anchors": ["trajectopy_core/alignment/estimation.py:estimate_alignment", "trajectopy_core/alignment/result.py:AlignmentResult", "trajectopy_core/settings/alignment.py:AlignmentSettings"]}
{"id": "C147", "title": "Length of a trajectory", "statement": "The length a trajectory shows is the length of the path through its positions, also after any history of cropping, cutting, matching, intersecting and interpolating; arc lengths never understate the way between two poses.", "quantifier": "all trajectories whose poses are stored in the order of time, all histories of these operations, all arguments", "why_tests_cant": "arc lengths are carried along by every operation instead of being computed again; the claim is an invariant of arbitrary histories", "anchors": ["trajectopy_core/trajectory.py:Trajectory.total_length", "trajectopy_core/trajectory.py:Trajectory.crop", "trajectopy_core/trajectory.py:Trajectory.interpolate", "trajectopy_core/trajectory.py:Trajectory.intersect", "trajectopy_core/trajectory.py:Trajectory.match_timestamps"]}
{"id": "C148", "title": "Data rate of a trajectory", "statement": "The data rate is the number of intervals divided by the time between the earliest and the latest pose, in whatever order the poses are stored; evenly sampled poses have the rate of their clock, and cropping keeps it; fewer than two poses have no rate.", "quantifier": "all trajectories, all orders of poses, all time spans", "why_tests_cant": "a statement about all lists of timestamps, including unordered ones and repeated ones", "anchors": ["trajectopy_core/trajectory.py:Trajectory.data_rate", "trajectopy_core/trajectory.py:Trajectory.crop"]}
{"id": "C149", "title": "Speeds", "statement": "The speeds of a new trajectory lead from each pose to the next, and speed times time adds up to the length of the path; no history of cropping, cutting, matching, intersecting and interpolating shows a speed above the highest one there was, nor poses further apart than that speed allows; and the speeds show how fast each pose moves.", "quantifier": "all trajectories with strictly increasing times, all histories of these operations (interpolation at times without repetition), all speed limits", "why_tests_cant": "speeds are computed anew on interpolation and carried along otherwise; the claim is an invariant of arbitrary histories over all paths", "anchors": ["trajectopy_core/trajectory.py:Trajectory.__init__", "trajectopy_core/trajectory.py:Trajectory.speed", "trajectopy_core/utils.py:gradient_3d", "trajectopy_core/trajectory.py:Trajectory.interpolate", "trajectopy_core/trajectory.py:Trajectory.crop"]}
{"id": "C150", "title": "Small changes of positions", "statement": "Moving every position by at most a small amount changes no result by more than a corresponding amount: pose-by-pose and summary errors of an absolute comparison (also along and across the track), drifts of a relative comparison over the same distances, interpolated positions, and path lengths; in particular, writing trajectories to files and reading them again changes no position error by more than 2 nanometres.", "quantifier": "all trajectories, all perturbations of their positions bounded by any amounts, all requested times and settings", "why_tests_cant": "a statement about all perturbations of all inputs; tests compare single perturbed inputs", "anchors": ["trajectopy_core/evaluation/comparison.py:compare_trajectories_absolute", "trajectopy_core/evaluation/comparison.py:compare_trajectories_relative", "trajectopy_core/evaluation/ate_result.py:ATEResult", "trajectopy_core/trajectory.py:Trajectory.interpolate", "trajectopy_core/trajectory.py:Trajectory.to_file"]}
{"id": "C151", "title": "Interpolation is local", "statement": "Interpolating at times between the poses that cropping keeps gives the same trajectory whether cropping comes first or not; poses outside of a time span have no influence on interpolation inside of it; and cropping before or after interpolating gives the same positions, orientations and arc lengths at the same times.", "quantifier": "all trajectories with increasing times, all time spans, all requested times", "why_tests_cant": "the claim ranges over all trajectories that agree on a time span; tests interpolate single trajectories", "anchors": ["trajectopy_core/trajectory.py:Trajectory.interpolate", "trajectopy_core/trajectory.py:Trajectory.crop"]}
{"id": "C152", "title": "Names and dictionaries of parameters", "statement": "Parameters made without a name get different names, whatever else is made in between; the dictionary of a parameter set has one entry for each parameter (or each enabled one), in order, with its value and variance, after any history of calls; sums and differences of parameter sets are taken parameter by parameter, with defaults for those that are not enabled.", "quantifier": "all histories of making parameters, all histories of calls on parameter sets, all parameter sets", "why_tests_cant": "the claim ranges over all histories; tests look at single objects", "anchors": ["trajectopy_core/alignment/parameters.py:Parameter", "trajectopy_core/alignment/parameters.py:ParameterSet.to_dict", "trajectopy_core/alignment/parameters.py:AlignmentParameters.__add__", "trajectopy_core/alignment/parameters.py:AlignmentParameters.__sub__", "trajectopy_core/alignment/parameters.py:AlignmentParameters.from_settings"]}
{"id": "C153", "title": "Looser limits", "statement": "Raising or removing the distance or time limit of a matching never makes it fail and keeps every matched reference pose, in order; a pair changes only if its new test pose is one that the old limit excluded, and every pair closer than the old limit was there before. Allowing larger gaps keeps every pose an intersection kept, and raising the largest pair distance only adds blocks of longer pairs to the relative errors.", "quantifier": "all trajectories, all limits, all nearest neighbour searches and rotation libraries that fulfil their contracts", "why_tests_cant": "the claim compares the results for all pairs of settings", "anchors": ["trajectopy_core/matching.py:kd_matcher", "trajectopy_core/matching.py:match_trajectories_spatial", "trajectopy_core/matching.py:match_trajectories_temporal", "trajectopy_core/trajectory.py:Trajectory.intersect", "trajectopy_core/evaluation/comparison.py:compare_trajectories_relative"]}
{"id": "C154", "title": "What is read from a file", "statement": "Every position, timestamp, arc length, speed and orientation of a trajectory read from a file is what its row says in the first column of that name; without such columns arc lengths and speeds come from the positions and there are no orientations. A file whose positions cannot be read is refused: with ValueError if a field is missing or a cell is no number, with IndexError if a field has no column.", "quantifier": "all texts, all headers and tables, all number, quaternion and rotation libraries", "why_tests_cant": "the claim ranges over all files; tests read a few files", "anchors": ["trajectopy_core/trajectory.py:Trajectory.from_file", "trajectopy_core/input_output/trajectory_io.py:extract_trajectory_pointset", "trajectopy_core/input_output/trajectory_io.py:extract_trajectory_timestamps", "trajectopy_core/input_output/trajectory_io.py:extract_trajectory_arc_lengths", "trajectopy_core/input_output/trajectory_io.py:extract_trajectory_speed", "trajectopy_core/input_output/trajectory_io.py:extract_trajectory_rotations"]}
{"id": "C155", "title": "Standard deviations of groups of observations", "statement": "The standard deviations reported for the groups of observations are the configured ones when the data are built; however often variances are estimated again, all groups are multiplied by one and the same number, and without variance estimation they stay. The adjustment passes its test exactly when the weighted squared residuals sum up to at most the quantile, and then passes it with every smaller probability of error.", "quantifier": "all observations, settings, variances, solvers and numbers of re-estimations", "why_tests_cant": "the number of re-estimations and the factors depend on the data; tests look at single adjustments", "anchors": ["trajectopy_core/alignment/data.py:AlignmentData.group_stds", "trajectopy_core/alignment/data.py:AlignmentData.build_var_vector", "trajectopy_core/alignment/estimation.py:AlignmentEstimation.estimate_parameters", "trajectopy_core/alignment/estimation.py:AlignmentEstimation._global_test"]}
{"id": "C156", "title": "Saving and loading again and again", "statement": "A trajectory with poses and a regular name can be written with to_file and read with from_file any number of times. Everything changes at the first reading only, by at most 5e-10: later readings return the same times, positions, orientations, arc lengths, speeds, EPSG code and name, and the files that are written are the same.", "quantifier": "all trajectories, numbers of repetitions, formats of numbers that repeat what they read", "why_tests_cant": "one round trip says nothing about the thousandth; whether rounding repeats itself depends on every single digit", "anchors": ["trajectopy_core/trajectory.py:Trajectory.to_file", "trajectopy_core/trajectory.py:Trajectory.from_file", "trajectopy_core/input_output/trajectory_io.py:extract_trajectory_rotations", "trajectopy_core/input_output/trajectory_io.py:extract_quaternions"]}
{"id": "C157", "title": "Recordings of one motion", "statement": "Two error-free recordings of the same motion, taken at different times, differ after matching by what sampling alone can cause. Interpolated positions of poses at most h apart are within v h / 2 of a motion with speed at most v and within a h^2 / 8 of one with acceleration at most a. Matching by interpolation therefore gives absolute errors of at most v times one second and at most a / 2, matching by time at most v times the largest permitted difference of time. Errors measured between different motions are the true ones but for the same bounds.", "quantifier": "all motions with bounded speed or acceleration, all sampling times of both trajectories, all settings of both matching methods", "why_tests_cant": "the worst case lies between the samples; no finite set of motions shows the bound", "anchors": ["trajectopy_core/trajectory.py:Trajectory.interpolate", "trajectopy_core/trajectory.py:Trajectory.intersect", "trajectopy_core/matching.py:match_trajectories_interpolation", "trajectopy_core/matching.py:match_trajectories_temporal", "trajectopy_core/evaluation/comparison.py:compare_trajectories_absolute"]}
{"id": "C158", "title": "What relative errors measure", "statement": "The relative errors are the rates at which an estimate goes wrong. With true orientations a drift of constant velocity gives every pair, per second, a position error equal to its speed and no rotation error; a constant displacement gives no error; a wrong scale k gives, per metre of path, at most |k - 1| and exactly that on straight stretches. Orientations that turn away at a constant rate give every pair, per second, a rotation error equal to that rate, as long as they turn by at most half a circle over the pair. Without orientations the position error is at most the drift and may be zero.", "quantifier": "all reference trajectories, drifts, offsets, scales, turning rates, pair settings and pairs", "why_tests_cant": "the value must come out the same for every pair of every trajectory", "anchors": ["trajectopy_core/evaluation/comparison.py:compare_trajectories_relative", "trajectopy_core/evaluation/comparison.py:se3_inv"]}
{"id": "C159", "title": "Absolute errors bound relative errors", "statement": "If no absolute position error exceeds eps and no absolute orientation error exceeds alpha, then no relative rotation error exceeds 2 alpha over the distance of the pair, and no relative position error exceeds 2 eps plus 2 sin(alpha/2) times the displacement, over the distance; without orientations 2 eps over the distance. With true orientations the absolute errors of two poses differ by at most their relative error times the distance.", "quantifier": "all pairs of trajectories, pair settings and pairs with a positive distance", "why_tests_cant": "two different evaluations of the same data must agree with each other for every input", "anchors": ["trajectopy_core/evaluation/comparison.py:compare_trajectories_absolute", "trajectopy_core/evaluation/comparison.py:compare_trajectories_relative", "trajectopy_core/evaluation/ate_result.py:ATEResult.pos_dev_max", "trajectopy_core/evaluation/ate_result.py:ATEResult.rot_dev_max"]}
{"id": "C160", "title": "What a wrong clock looks like", "statement": "If the estimate is a recording of the same motion with a clock that is off by d seconds, no absolute position error exceeds the speed limit of the motion times |d|. In straight motion at constant velocity w every pose is off by exactly d |w| along the track and nothing across it: the along-track bias is d |w|, both cross-track biases are zero, and the ATE is |d| |w|.", "quantifier": "all motions with a speed limit, all clock offsets, all recordings of any length", "why_tests_cant": "a unit test fixes one motion and one offset; the claim is about the shape of the error for all of them", "anchors": ["trajectopy_core/evaluation/comparison.py:compare_trajectories_absolute", "trajectopy_core/evaluation/ate_result.py:ATEResult.pos_bias_along", "trajectopy_core/evaluation/ate_result.py:ATEResult.pos_ate", "trajectopy_core/evaluation/ate_result.py:ATEResult.pos_dev_max"]}
{"id": "C161", "title": "Matching with different clocks or noisy positions", "statement": "Temporal matching of two recordings of equal length whose corresponding time stamps differ by at most e pairs every pose with its counterpart and drops none, if the reference is sampled at intervals longer than 2 e and e is below the time limit. If the estimate is late by k samples (up to e), each of its poses is paired with the pose of the reference k samples later. So a clock offset of less than half the sampling interval is invisible: all errors are zero. Likewise spatial matching keeps all poses if positions are off by at most e and different reference positions are more than 2 e apart, and the reported errors are at most e. If two poses have the same time stamp, they are paired.", "quantifier": "all pairs of recordings, clock offsets, sampling intervals and time limits", "why_tests_cant": "the outcome depends on the offset in comparison with every interval of the recording and on which of several candidates the matcher keeps", "anchors": ["trajectopy_core/matching.py:match_trajectories_temporal", "trajectopy_core/matching.py:match_trajectories_spatial", "trajectopy_core/matching.py:kd_matcher", "trajectopy_core/evaluation/comparison.py:compare_trajectories_absolute"]}
{"id": "C162", "title": "Approximation does not depend on the axes", "statement": "Approximating a trajectory with piecewise cubics commutes with any change of the axes of its positions: rotating, scaling, mirroring, shearing or shifting the positions (with the same times and arc lengths) and then approximating gives the approximation, rotated, scaled, mirrored, sheared or shifted. On one axis it commutes with sums, multiples and constants. Approximating twice gives the same as once, the centre of the positions stays where it is, and the approximations of two sets of positions at the same arguments are at most as far apart (sum of squared distances) as the positions.", "quantifier": "all trajectories (sorted by time or arc length, with or without orientations), interval sizes, minimum numbers of observations, matrices and shifts, and all solvers of linear systems that solve what they return and whose failure depends on the matrix only", "why_tests_cant": "Examples compare a few frames; the claim is for every affine frame, every number of poses and intervals, and rests on least squares being a projection", "anchors": ["trajectopy_core/trajectory.py:Trajectory.approximate", "trajectopy_core/approximation/cubic_approximation.py:piecewise_cubic", "trajectopy_core/approximation/cubic_approximation.py:CubicApproximation", "trajectopy_core/utils.py:sparse_least_squares"]}
{"id": "C163", "title": "Smoothing in another frame", "statement": "Smoothing a trajectory that was moved rigidly into another frame gives the smoothed trajectory, moved into that frame: same positions, same orientations (as rotation matrices), same times, arc lengths, speeds, name and sorting. This holds with and without orientations, as long as the orientations in each smoothing window have a single best mean.", "quantifier": "all consistent trajectories (sorted by time or arc length), rigid motions, interval sizes, minimum numbers of observations and window sizes, all linear solvers and rotation means that meet their contracts", "why_tests_cant": "Examples compare a few frames; the claim is for every rigid motion and every trajectory and combines least squares for positions with window means of orientations", "anchors": ["trajectopy_core/trajectory.py:Trajectory.approximate", "trajectopy_core/trajectory.py:Trajectory.apply_transformation", "trajectopy_core/approximation/rot_approximation.py:rot_average_window", "trajectopy_core/approximation/cubic_approximation.py:piecewise_cubic"]}
{"id": "C164", "title": "Better trajectories get better numbers", "statement": "If every position of one trajectory is at most as far from its reference position as that of another trajectory, then its smallest, largest, mean, median and root mean square position error are not larger, and for every limit at least as many of its poses are within the limit. If one position is really closer, then mean and root mean square error are really smaller. The standard deviation is no such measure: it can be larger for the better trajectory.", "quantifier": "all references and pairs of trajectories of the same length, with and without orientations", "why_tests_cant": "Rankings are computed from single numbers; that the numbers respect pose-wise dominance must hold for every set of deviations", "anchors": ["trajectopy_core/evaluation/comparison.py:compare_trajectories_absolute", "trajectopy_core/evaluation/ate_result.py:ATEResult"]}
{"id": "C165", "title": "Origin and unit of time do not matter for smoothing", "statement": "Smoothing gives the same result when all time stamps (or arc lengths) are counted from another origin, and when they are given in another unit together with the interval and window sizes: only the time stamps and the nodes of the intervals differ, by the same shift or factor. This is true of positions, and of orientations for the unit. It is false of orientations for the origin.", "quantifier": "all trajectories sorted by time or arc length, all shifts, positive factors, interval sizes, minimum numbers of observations, window sizes and linear solvers", "why_tests_cant": "Test data starts at one origin and uses one unit; the claim is for every origin and unit, and where it fails depends on rounding of absolute time stamps", "anchors": ["trajectopy_core/approximation/cubic_approximation.py:CubicApproximation", "trajectopy_core/approximation/cubic_approximation.py:piecewise_cubic", "trajectopy_core/approximation/rot_approximation.py:rot_average_window", "trajectopy_core/trajectory.py:Trajectory.approximate"]}
{"id": "C166", "title": "Aligning in the other direction and again", "statement": "The closed-form alignment moves the centre of the sources to the centre of the targets. What it leaves and the spread of the aligned sources add up to the spread of the targets, so aligned sources are never spread wider than the targets. Aligning in both directions gives scales whose product is at most one, and one exactly if nothing is left; relative to the spread of the targets the same is left in both directions. Aligning the aligned sources again finds the scale one and leaves the same. For orientations, what is left is the same in both directions and after aligning again, and if there is a single best rotation, the other direction gives its inverse and aligning again gives the identity.", "quantifier": "all point pairs, non-negative weights and behaviours of the singular value decomposition within its contract", "why_tests_cant": "the claims relate several estimations, each a minimum over all similarities, for every point set", "anchors": ["trajectopy_core/alignment/direct.py:direct_helmert_transformation", "trajectopy_core/alignment/direct.py:align_rotations"]}
{"id": "C167", "title": "Several estimates against one reference", "statement": "When the metrics are called for one estimate after the other with the same reference object, every estimate is compared with poses of the original reference in their order, and the reference only loses poses. If the time stamps of all estimates are those of the reference up to less than half a sampling interval, temporal matching changes nothing and every estimate is compared with the whole reference. In general, the result for an estimate does not depend on which estimates were evaluated before it.", "quantifier": "all references, all series of estimates, all matching methods and settings and all behaviours of the nearest-neighbour search within its contract", "why_tests_cant": "the claim is about histories of calls that share one mutable object", "anchors": ["trajectopy_core/evaluation/metrics.py:ate", "trajectopy_core/evaluation/metrics.py:rpe", "trajectopy_core/matching.py:match_trajectories"]}
{"id": "C168", "title": "What weights stand for", "statement": "The closed-form alignment depends on the weighted pairs only through weighted totals: in any order the result is exactly the same, a pair listed n times counts like the pair with n times its weight, pairs listed with several weights count with their sum, and pairs of weight zero do not count, also not for the exceptions. Only the ratios of the weights matter: multiplying all by a positive number gives the same scale and leaves the same weighted sum of squared distances.", "quantifier": "all point pairs and weights, all behaviours of the singular value decomposition (within its contract for the last claim)", "why_tests_cant": "the claims relate estimations over lists of any length and any order", "anchors": ["trajectopy_core/alignment/direct.py:direct_helmert_transformation"]}
{"id": "C169", "title": "Errors of a whole and of its parts", "statement": "If the poses of two compared trajectories are divided into two parts, the mean and the mean square of the position errors are those of the parts weighted with the numbers of poses, smallest and largest error are the smallest and largest of the parts, the median lies between the medians of the parts, the share of poses within a limit is the weighted share, and the squared standard deviation is the weighted one of the parts plus a term for the difference of the means.", "quantifier": "all pairs of trajectories, all divisions of the poses into two non-empty parts", "why_tests_cant": "the claim ranges over all data and all subsets of poses", "anchors": ["trajectopy_core/evaluation/comparison.py:compare_trajectories_absolute", "trajectopy_core/evaluation/ate_result.py:ATEResult", "trajectopy_core/trajectory.py:Trajectory.apply_index"]}
{"id": "C170", "title": "Aligning does not make errors larger", "statement": "After applying the closed-form similarity (if it is no mirror image), lever arm and time shift, or time shift to the trajectory they were estimated for, the root mean square of the position errors is at most the one without alignment and at most the one after applying any other parameters of this kind. The mean position error is not larger either.", "quantifier": "all pairs of trajectories of the same length, all solvers and decompositions within their contracts, all other parameters", "why_tests_cant": "optimality over a continuum of parameters, carried through applying and comparing", "anchors": ["trajectopy_core/alignment/direct.py:direct_helmert_transformation", "trajectopy_core/alignment/direct.py:direct_leverarm", "trajectopy_core/alignment/direct.py:direct_timeshift", "trajectopy_core/trajectory.py:Trajectory.apply_alignment", "trajectopy_core/evaluation/comparison.py:compare_trajectories_absolute"]}
