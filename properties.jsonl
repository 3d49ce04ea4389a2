{"id": "C01", "title": "Total-least-squares optimality", "statement": "Fitting PCAOrientation to a coordinate array without weights yields the plane through the array's mean with the reported normal, and no other plane (any unit normal, any offset) has a smaller sum of squared perpendicular distances to the input points.", "quantifier": "every finite array of at least 3 points, every admissible SVD result, every competing plane", "why_tests_cant": "optimality quantifies over a continuum of competing planes and all data sets; a test can only compare against finitely many", "anchors": ["attitude/orientation/pca.py:PCAOrientation.__init__", "attitude/orientation/pca.py:PCAOrientation.__run_svd", "attitude/orientation/pca.py:PCAOrientation.normal", "attitude/coordinates/__init__.py:centered"]}
{"id": "C02", "title": "Fit residual magnitude equals the last singular value", "statement": "The sum of squared perpendicular distances of the input points to the fitted plane equals singular_values[2]**2, and residuals() returns exactly the perpendicular displacement vectors: each row is parallel to the normal and removing it puts the centred point on the plane.", "quantifier": "every array of at least 3 points and every admissible SVD result", "why_tests_cant": "identity over all real data", "anchors": ["attitude/orientation/pca.py:PCAOrientation.residuals", "attitude/orientation/pca.py:PCAOrientation.rotated"]}
{"id": "C03", "title": "Translation invariance of a fit", "statement": "Adding one constant vector to every input coordinate changes only the reported centre (by that vector): the axes, singular values, normal, strike, dip, rake and errors are unchanged.", "quantifier": "every array and every translation vector", "why_tests_cant": "holds for all arrays and all translations", "anchors": ["attitude/orientation/pca.py:PCAOrientation.__init__", "attitude/coordinates/__init__.py:centered"]}
{"id": "C04", "title": "Centering", "statement": "centered(x) has zero column means, preserves all coordinate differences, is idempotent, and is unaffected by translating its input; centre + centred row gives back every input row.", "quantifier": "every array with at least one row", "why_tests_cant": "universally quantified over arrays", "anchors": ["attitude/coordinates/__init__.py:centered", "attitude/orientation/pca.py:PCAOrientation.center", "attitude/orientation/pca.py:PCAOrientation.centered_array"]}
{"id": "C05", "title": "Fewer than three points are rejected", "statement": "PCAOrientation(arr) without precomputed axes and with non-zero weights raises ValueError exactly when arr has fewer than three rows; with three or more rows it always produces a fit.", "quantifier": "every array length and content", "why_tests_cant": "the 'always succeeds' direction covers all arrays, including collinear and coincident points", "anchors": ["attitude/orientation/pca.py:PCAOrientation.__run_svd"]}
{"id": "C06", "title": "Singular values depend only on the data, not on row order", "statement": "Two fits to arrays that are permutations of each other have equal singular values (hence equal hyperbolic axes and angular errors), and when the second and third singular values differ, equal normals up to the vertical-flip convention - whatever SVD results LAPACK returns for each.", "quantifier": "every array of at least 3 points, every permutation of its rows, every pair of admissible SVD results", "why_tests_cant": "n! orderings and a non-deterministic choice of singular vectors", "anchors": ["attitude/orientation/pca.py:PCAOrientation.__run_svd", "attitude/orientation/pca.py:PCAOrientation.hyperbolic_axes"]}
{"id": "C07", "title": "Rotation equivariance", "statement": "Rotating (or reflecting) the input data by an orthogonal matrix leaves the singular values and angular errors unchanged and, when singular values 2 and 3 differ, carries the fitted plane's normal line to the rotated normal line.", "quantifier": "every array of at least 3 points, every orthogonal 3x3 matrix, all admissible SVD results", "why_tests_cant": "continuum of rotations", "anchors": ["attitude/orientation/pca.py:PCAOrientation.__run_svd", "attitude/orientation/pca.py:PCAOrientation.normal"]}
{"id": "C08", "title": "Scale equivariance", "statement": "Multiplying all coordinates by a positive factor k multiplies singular values by k and eigenvalues and hyperbolic axes by k**2 and leaves angular errors unchanged (they do not depend on the unit of length).", "quantifier": "every array of at least 3 points, every k>0, all admissible SVD results", "why_tests_cant": "continuum of scale factors", "anchors": ["attitude/orientation/pca.py:PCAOrientation.eigenvalues", "attitude/error/axes.py:statistical_axes", "attitude/error/axes.py:angular_errors"]}
{"id": "C09", "title": "Normal vector convention", "statement": "The normal of a fit is a unit vector, never points downwards, equals plus or minus the third axis, and is perpendicular to the first two axes; strike is horizontal and lies in the plane.", "quantifier": "every fit built from data", "why_tests_cant": "all fits, including vertical, horizontal and degenerate ones", "anchors": ["attitude/orientation/pca.py:PCAOrientation.__compute_derived_parameters"]}
{"id": "C10", "title": "dip_dr points up dip and exists exactly for non-horizontal planes", "statement": "For a fit whose plane is not horizontal dip_dr is the unit in-plane vector perpendicular to strike with positive (up-dip) vertical component; for an exactly horizontal plane it is not a finite vector.", "quantifier": "every fit", "why_tests_cant": "continuum of planes plus the measure-zero horizontal case", "anchors": ["attitude/orientation/pca.py:PCAOrientation.__compute_derived_parameters", "attitude/orientation/pca.py:normalize"]}
{"id": "C11", "title": "strike_dip range", "statement": "strike_dip() always returns dip in [0,90] degrees and strike in [0,360) degrees.", "quantifier": "every unit normal, either orientation", "why_tests_cant": "boundary cases of arctan2/arccos on a continuum", "anchors": ["attitude/orientation/pca.py:PCAOrientation.strike_dip"]}
{"id": "C12", "title": "strike_dip determines the fitted plane", "statement": "The plane with the reported strike and dip under the right-hand rule (x east, y north, dip direction = strike+90) is the fitted plane: its upward normal (sin d cos s, -sin d sin s, cos d) equals plus or minus the third axis.", "quantifier": "every fit", "why_tests_cant": "continuum of orientations and both branch flips", "anchors": ["attitude/orientation/pca.py:PCAOrientation.strike_dip"]}
{"id": "C13", "title": "strike_dip does not depend on the sign LAPACK picks", "statement": "Negating any of the SVD's singular vectors (an arbitrary LAPACK choice) leaves strike_dip() unchanged for every plane that is neither exactly horizontal nor exactly vertical; for vertical planes the two strikes differ by 180 degrees and for horizontal planes the strike is 270 or 90 while the dip is unchanged.", "quantifier": "every unit third axis", "why_tests_cant": "the sign choice is not controllable from a test", "anchors": ["attitude/orientation/pca.py:PCAOrientation.strike_dip"]}
{"id": "C14", "title": "dip_direction range", "statement": "dip_direction() of a fit is (strike+90, dip) with the azimuth in [90,450): it is congruent to the true dip azimuth modulo 360 but is a normalised azimuth (<360) only for strikes below 270.", "quantifier": "every fit", "why_tests_cant": "continuum of orientations", "anchors": ["attitude/orientation/base.py:BaseOrientation.dip_direction"]}
{"id": "C15", "title": "gradient agrees with strike_dip only for upward axes", "statement": "For fits whose third axis points up, gradient()'s slope equals the dip and its azimuth the strike+90 (mod 360); for downward third axes the slope is 180-dip and the azimuth is off by 180 degrees, so a user cannot rely on the agreement.", "quantifier": "every fit", "why_tests_cant": "depends on an uncontrollable sign", "anchors": ["attitude/orientation/base.py:BaseOrientation.gradient", "attitude/orientation/pca.py:PCAOrientation.slope", "attitude/orientation/pca.py:PCAOrientation.azimuth"]}
{"id": "C16", "title": "rake range and sign ambiguity", "statement": "rake() lies in [0,180] for every non-horizontal fit, and replacing the first axis by its negative replaces the rake by 180 minus it; cos(rake) is the cosine between dip_dr and the first axis.", "quantifier": "every non-horizontal fit", "why_tests_cant": "continuum of fits and the SVD's sign choice", "anchors": ["attitude/orientation/pca.py:PCAOrientation.rake", "attitude/geom/util.py:angle"]}
{"id": "C17", "title": "Despinning is an invertible isometry", "statement": "rotated() keeps all pairwise distances and norms, and multiplying back by the axes returns the centred array; the columns of rotated() are uncorrelated with sums of squares equal to the squared singular values.", "quantifier": "every array of at least 3 points", "why_tests_cant": "identity over all data", "anchors": ["attitude/orientation/pca.py:PCAOrientation.rotated", "attitude/orientation/pca.py:PCAOrientation.eigenvalues"]}
{"id": "C18", "title": "Eigenvalues are the sample variances along the axes", "statement": "eigenvalues[i] equals the sample variance (n-1 denominator) of the input coordinates projected on axis i; they are non-negative, non-increasing and sum to the total sample variance of x, y and z.", "quantifier": "every array of at least 3 points", "why_tests_cant": "identity over all data", "anchors": ["attitude/orientation/pca.py:PCAOrientation.eigenvalues"]}
{"id": "C19", "title": "First axis is the direction of greatest variance", "statement": "No direction has larger sample variance than axes[0], and no direction perpendicular to axes[0] has larger variance than axes[1].", "quantifier": "every array of at least 3 points and every unit direction", "why_tests_cant": "continuum of directions", "anchors": ["attitude/orientation/pca.py:PCAOrientation.axes"]}
{"id": "C20", "title": "SVD reconstruction", "statement": "For an unweighted fit U @ diag(singular_values) @ V reproduces the centred array exactly and U has orthonormal columns; the same holds for fits reloaded from saved principal_axes when all singular values are positive.", "quantifier": "every array of at least 3 points", "why_tests_cant": "identity over all data", "anchors": ["attitude/orientation/pca.py:PCAOrientation.U", "attitude/orientation/pca.py:test_SVD"]}
{"id": "C21", "title": "Saved-axes round trip", "statement": "Constructing PCAOrientation(arr, axes=fit.principal_axes) from a fit with positive singular values recovers the fit's axes, singular values, normal, strike/dip, rake, hyperbolic axes and hash.", "quantifier": "every array whose fit has three positive singular values", "why_tests_cant": "all data sets", "anchors": ["attitude/orientation/pca.py:PCAOrientation.__load_saved_fit", "attitude/orientation/base.py:BaseOrientation.principal_axes"]}
{"id": "C22", "title": "Saved-axes round trip fails for exact planes", "statement": "A fit to exactly coplanar points (third singular value 0) cannot be reloaded from its principal_axes: the reloaded object has non-finite axes.", "quantifier": "every exactly coplanar array", "why_tests_cant": "all coplanar data", "anchors": ["attitude/orientation/pca.py:PCAOrientation.__load_saved_fit"]}
{"id": "C23", "title": "Uniform weights leave the fit unchanged", "statement": "Passing weights (w,w,w) with w>0 gives a fit with the same admissible axes and the same singular values as passing no weights.", "quantifier": "every array of at least 3 points and every w>0", "why_tests_cant": "continuum of weights", "anchors": ["attitude/orientation/pca.py:PCAOrientation.__run_svd"]}
{"id": "C24", "title": "Weighted fits: scaled singular values and where the decomposition survives", "statement": "With positive per-axis weights w the reported singular value i is w[i] times the i-th singular value of the rescaled data; U @ diag(s) @ V therefore reproduces the rescaled (not the original) data only after undoing the weights, and for non-uniform weights the singular values may be unsorted and U @ diag(s) @ V may differ from the centred array (both shown by a witness), although users may expect both.", "quantifier": "every array of at least 3 points and every positive weight vector", "why_tests_cant": "fails only for suitable non-uniform weights", "anchors": ["attitude/orientation/pca.py:PCAOrientation.__run_svd"]}
{"id": "C25", "title": "Reading errors does not change a fit's geometry", "statement": "Any sequence of calls to strike_dip, residuals, as_conic, error_ellipse, normal_errors or plotting helpers leaves the normal, centre, residuals, eigenvalues and dip of the fit unchanged, the strike too unless the plane is exactly horizontal, and changes the axes at most by a common sign.", "quantifier": "every fit and every finite history of accessor calls", "why_tests_cant": "unbounded call histories", "anchors": ["attitude/orientation/pca.py:PCAOrientation.as_conic", "attitude/stereonet.py:normal_errors"]}
{"id": "C26", "title": "Identifier changes exactly when a read-only call flips the axes", "statement": "The array hashed into a fit's uid is unchanged by as_conic()/normal_errors() exactly when the third axis does not point down (or all singular values vanish); for a downward third axis every entry is negated, so the uid a user stored before the call no longer matches. After the first such call the uid never changes again.", "quantifier": "every fit and every finite call history", "why_tests_cant": "depends on the SVD's sign choice", "anchors": ["attitude/orientation/base.py:BaseOrientation.hash", "attitude/orientation/pca.py:PCAOrientation.as_conic", "attitude/stereonet.py:normal_errors"]}
{"id": "C27", "title": "Hyperbolic axes are non-negative and error widens the normal axis", "statement": "statistical_axes (noise or sampling, any confidence level, Fisher or chi-square) returns three non-negative lengths; the third is the third eigenvalue plus a non-negative error term and the in-plane ones are the absolute difference of eigenvalue and error.", "quantifier": "every fit with n>=3, every confidence level and statistic value >=0", "why_tests_cant": "continuum of data and levels", "anchors": ["attitude/error/axes.py:statistical_axes", "attitude/error/axes.py:apply_error_scaling", "attitude/error/axes.py:noise_covariance", "attitude/error/axes.py:sampling_covariance"]}
{"id": "C28", "title": "Angular errors are angles between 0 and 90 degrees", "statement": "angular_errors() lie in [0,90] degrees for every non-negative hyperbolic axes triple, are strictly increasing in the normal axis length and strictly decreasing in the in-plane lengths.", "quantifier": "every triple of positive axis lengths", "why_tests_cant": "continuum", "anchors": ["attitude/error/axes.py:angular_errors", "attitude/orientation/pca.py:PCAOrientation.angular_errors"]}
{"id": "C29", "title": "Angular errors are ordered (minimum, maximum) for well-defined planes", "statement": "The first angular error is at most the second whenever the second eigenvalue is at least 4*z**2 times the measurement noise (i.e. the plane is well defined).", "quantifier": "every fit and statistic value satisfying the condition", "why_tests_cant": "continuum", "anchors": ["attitude/error/axes.py:angular_errors", "attitude/error/axes.py:statistical_axes", "attitude/orientation/pca.py:PCAOrientation.angular_errors"]}
{"id": "C30", "title": "Exact condition for the ordering of angular errors", "statement": "With a=sqrt(e0), b=sqrt(e1), t=2*z*sqrt(noise variance), the reported minimum angular error is <= the maximum exactly when |a*a-t*a| >= |b*b-t*b|; this fails for some poorly defined planes (witness), so min_angular_error <= max_angular_error is not guaranteed.", "quantifier": "every fit with n>=3 and every statistic value >= 0", "why_tests_cant": "fails only for poorly-defined planes", "anchors": ["attitude/error/axes.py:angular_errors", "attitude/orientation/base.py:BaseOrientation.to_mapping"]}
{"id": "C31", "title": "Greater confidence never shrinks the error for well-defined planes", "statement": "Raising the confidence level (a larger statistic) never decreases either angular error as long as the error term does not exceed the in-plane eigenvalue.", "quantifier": "every fit and pair of statistic values in the domain", "why_tests_cant": "continuum of levels", "anchors": ["attitude/error/axes.py:statistical_axes", "attitude/error/axes.py:fisher_statistic"]}
{"id": "C32", "title": "Beyond the in-plane eigenvalue the error folds back", "statement": "Once the error term exceeds an in-plane eigenvalue the reported in-plane axis grows again with the confidence level (absolute value folding), so that there are fits for which a higher confidence level reports a smaller angular error (witness).", "quantifier": "every fit and pair of statistic values beyond the fold", "why_tests_cant": "fails only when the error term crosses the in-plane eigenvalue", "anchors": ["attitude/error/axes.py:apply_error_scaling"]}
{"id": "C33", "title": "Plane-error / normal-error duality", "statement": "from_normal_errors(to_normal_errors(axes)) == axes and vice versa for all axes with non-zero components; the angular errors of the normal representation are the complements of those of the plane representation.", "quantifier": "every triple of non-zero axis lengths", "why_tests_cant": "continuum", "anchors": ["attitude/error/__init__.py:to_normal_errors", "attitude/error/__init__.py:from_normal_errors"]}
{"id": "C34", "title": "Noise covariance vanishes exactly for planar data and decreases with sample size", "statement": "The noise covariance entries are non-negative, the out-of-plane one vanishes exactly for perfectly planar data (then all do), and for equal eigenvalues they strictly decrease with the sample size; hence more samples never give larger angular errors for well-defined planes. mean_estimator divides the given variance by n - ddof: with its default the variance of the mean comes out n/(n-1) times too large, and it is not finite exactly when n equals ddof.", "quantifier": "every fit with n>=3, all pairs of sample sizes", "why_tests_cant": "all data", "anchors": ["attitude/error/axes.py:noise_covariance", "attitude/error/axes.py:sampling_covariance", "attitude/error/axes.py:mean_estimator"]}
{"id": "C35", "title": "The dof argument never reaches the noise covariance", "statement": "The hyperbolic axes computed with any dof argument equal those computed from the dof=2 noise covariance and the F statistic with that dof; dof therefore only affects the statistic, not the noise estimate (contrary to noise_covariance's own parameter).", "quantifier": "every fit, dof and confidence level", "why_tests_cant": "requires reasoning about keyword forwarding for all arguments", "anchors": ["attitude/error/axes.py:statistical_axes", "attitude/error/axes.py:noise_covariance"]}
{"id": "C36", "title": "explained_variance weighs axes by cubed singular values", "statement": "explained_variance equals (s0^3+s1^3)/(s0^3+s1^3+s2^3) and coincides with the documented proportion of variance (e0+e1)/(e0+e1+e2) exactly when the data are coplanar or the three singular values satisfy s0^2*(s0-s2)+s1^2*(s1-s2)=0; otherwise it is strictly larger.", "quantifier": "every fit with non-zero data", "why_tests_cant": "all data", "anchors": ["attitude/orientation/pca.py:PCAOrientation.explained_variance"]}
{"id": "C37", "title": "explained_variance bounds", "statement": "For every unweighted fit with non-zero data, explained_variance lies in [2/3,1], equals 1 exactly when the data are coplanar, and is never smaller than the true proportion of variance.", "quantifier": "every fit with at least one non-zero singular value", "why_tests_cant": "inequality over all data", "anchors": ["attitude/orientation/pca.py:PCAOrientation.explained_variance", "attitude/orientation/pca.py:PCAOrientation._covariance_matrix"]}
{"id": "C38", "title": "Reconstructed plane has the stated strike and dip", "statement": "ReconstructedPlane(strike, dip, rake, ...) has unit normal (sin d cos s, -sin d sin s, cos d) for dips in [0,90] - the same plane that strike_dip() of a PCA fit describes - and three mutually perpendicular unit axes, the third being that normal.", "quantifier": "every strike, dip in [0,90], rake", "why_tests_cant": "continuum of angles", "anchors": ["attitude/orientation/reconstructed.py:ReconstructedPlane.__init__"]}
{"id": "C39", "title": "Reconstructing a fit from its reported angles recovers the plane", "statement": "Building a ReconstructedPlane from the strike, dip and rake a fit reports gives a plane whose normal, and whose third axis, is exactly the fit's normal.", "quantifier": "every non-horizontal fit", "why_tests_cant": "depends on an uncontrollable sign/handedness", "anchors": ["attitude/orientation/reconstructed.py:ReconstructedPlane.__init__", "attitude/orientation/pca.py:PCAOrientation.strike_dip_rake"]}
{"id": "C40", "title": "Reconstructed in-plane axes match the fit's only for one sign of its first axis", "statement": "The first (and likewise the second) reconstructed axis lies along the fit's exactly when the fit's first axis has a non-negative component along the strike direction or the rake is 90 degrees. The decomposition may return the axis with either sign; of the two signs exactly one is reconstructed unless the rake is 0, 90 or 180. A fit whose reconstructed axes are mirrored exists.", "quantifier": "every non-horizontal fit", "why_tests_cant": "fails for half of all handednesses", "anchors": ["attitude/orientation/reconstructed.py:ReconstructedPlane.__init__", "attitude/orientation/pca.py:PCAOrientation.rake"]}
{"id": "C41", "title": "Reconstructed plane reports its inputs", "statement": "strike_dip_rake(), angular_errors() and to_mapping() of a ReconstructedPlane report exactly the arguments it was built from.", "quantifier": "all arguments", "why_tests_cant": "all inputs", "anchors": ["attitude/orientation/reconstructed.py:ReconstructedPlane.strike_dip_rake", "attitude/orientation/reconstructed.py:ReconstructedPlane.angular_errors", "attitude/orientation/base.py:BaseOrientation.to_mapping"]}
{"id": "C42", "title": "Reconstructed hyperbolic axes do not reproduce the angular errors", "statement": "For a reconstructed plane with angular errors a,b in (0,180) degrees, angular_errors(hyperbolic_axes) is (arctan sqrt tan(b/2), arctan sqrt tan(a/2)): the two errors come back in swapped order and, for a witness, with different values.", "quantifier": "all angular errors in (0,180)", "why_tests_cant": "continuum", "anchors": ["attitude/orientation/reconstructed.py:ReconstructedPlane.__init__", "attitude/error/axes.py:angular_errors"]}
{"id": "C43", "title": "Grouping is insensitive to member offsets", "statement": "The orientation of GroupedOrientation(members) with same_plane=False is unchanged when each member's data is translated by its own vector; its centre is the mean of all original points.", "quantifier": "every family of members and translation vectors", "why_tests_cant": "all data and translations", "anchors": ["attitude/orientation/grouped.py:GroupedOrientation.__init__"]}
{"id": "C44", "title": "Group decomposition of scatter", "statement": "The fit of a group minimises the sum of squared distances of all members' points to parallel planes, one per member: no common normal direction (with any separate offset for each member) does better.", "quantifier": "every family of members with at least 3 points in all, every competing normal and every family of offsets", "why_tests_cant": "optimality over a continuum", "anchors": ["attitude/orientation/grouped.py:GroupedOrientation.__init__"]}
{"id": "C45", "title": "Group membership links are consistent", "statement": "After a successful create_groups call, every member of every group created by the call points back to that group, every orientation in the result not in any group has no parent, and the result is the input orientations in order followed by one new group per uid list in order.", "quantifier": "every list of orientations and every family of disjoint uid lists", "why_tests_cant": "all histories of grouping", "anchors": ["attitude/orientation/grouped.py:create_groups", "attitude/orientation/grouped.py:GroupedOrientation.__init__"]}
{"id": "C46", "title": "create_groups rejects unknown identifiers", "statement": "create_groups raises KeyError whenever some uid matches no orientation available at that point and no earlier error occurs; it never silently drops a requested member.", "quantifier": "every list of orientations and uid lists", "why_tests_cant": "all inputs", "anchors": ["attitude/orientation/grouped.py:create_groups"]}
{"id": "C47", "title": "create_groups with copy=True does not modify the caller's orientations", "statement": "With copy=True the caller's list and its orientation objects keep their membership, provided none of them is already a group.", "quantifier": "every heap of ungrouped orientations and all uid lists, including failing calls", "why_tests_cant": "all heaps and failure points", "anchors": ["attitude/orientation/grouped.py:create_groups"]}
{"id": "C48", "title": "create_groups with copy=True still relinks members of existing groups", "statement": "With copy=True the only objects existing before the call that are ever modified are members of groups in the input, and of those only the parent link, which then points to the fresh copy of their group (witness given).", "quantifier": "every heap, input list and uid lists", "why_tests_cant": "needs pre-existing groups", "anchors": ["attitude/orientation/grouped.py:create_groups"]}
{"id": "C49", "title": "Detection of already-grouped orientations", "statement": "With copy=False a requested orientation that is a member of a group present in the input list is rejected with GroupedPlaneError; with copy=True it never is (the membership test compares fresh copies by identity), so an orientation can end up in two groups (witness), as it can when two uid lists of one call share a uid.", "quantifier": "every heap and uid lists", "why_tests_cant": "needs particular histories", "anchors": ["attitude/orientation/grouped.py:create_groups"]}
{"id": "C50", "title": "What a failed grouping leaves behind", "statement": "When building a group fails because argument k is itself a group, exactly the arguments before k have been re-parented to the unfinished group and nothing else changed; when disable_orientations fails at uid k, exactly the orientations for earlier uids are disabled. Neither is rolled back.", "quantifier": "every failing call and failure point", "why_tests_cant": "crash-point property", "anchors": ["attitude/orientation/grouped.py:GroupedOrientation.__init__", "attitude/orientation/grouped.py:disable_orientations"]}
{"id": "C51", "title": "Groups cannot be nested", "statement": "GroupedOrientation raises GroupedPlaneError if any argument is itself a group; consequently in every state reachable by grouping operations no group is a member of a group.", "quantifier": "every sequence of grouping calls", "why_tests_cant": "all histories", "anchors": ["attitude/orientation/grouped.py:GroupedOrientation.__init__"]}
{"id": "C52", "title": "disable_orientations marks exactly the requested orientations", "statement": "After disable_orientations succeeds, an orientation is disabled iff it was before or it is the first orientation with one of the requested uids; unknown uids raise KeyError.", "quantifier": "every list and uids", "why_tests_cant": "all inputs", "anchors": ["attitude/orientation/grouped.py:disable_orientations"]}
{"id": "C53", "title": "Mapping precedence", "statement": "User-supplied keyword values always override computed values in to_mapping, except that the membership links member_of (for members) and members (for groups) are always taken from the object.", "quantifier": "every set of keyword values", "why_tests_cant": "all key sets", "anchors": ["attitude/orientation/base.py:BaseOrientation.to_mapping", "attitude/orientation/pca.py:PCAOrientation.to_mapping", "attitude/orientation/grouped.py:GroupedOrientation.to_mapping"]}
{"id": "C54", "title": "Vectorised and iterative plane errors agree", "statement": "At level 1 and in the traditional layout plane_errors and iterative_plane_errors return the same points for every known sheet, number of points and diagonal covariance whenever axes[2,2] != 0, whatever level the iterative version is given; at any other level the vectorised version differs. An unknown sheet name gives the nominal plane in one and KeyError in the other.", "quantifier": "all axes with axes[2,2]!=0, all diagonal covariances, levels, n and sheet names", "why_tests_cant": "continuum", "anchors": ["attitude/stereonet.py:plane_errors", "attitude/stereonet.py:iterative_plane_errors"]}
{"id": "C55", "title": "For vertical third-axis-horizontal planes the two implementations swap sheets", "statement": "When axes[2,2]==0, plane_errors' upper sheet is iterative_plane_errors' lower sheet and vice versa, and they differ for some input.", "quantifier": "all axes with axes[2,2]=0", "why_tests_cant": "measure-zero case", "anchors": ["attitude/stereonet.py:plane_errors", "attitude/stereonet.py:iterative_plane_errors"]}
{"id": "C56", "title": "Vectorised and iterative normal errors agree", "statement": "normal_errors and iterative_normal_errors return the same points for every number of points, covariance, axes and layout.", "quantifier": "all axes, covariances, n and both layouts", "why_tests_cant": "continuum", "anchors": ["attitude/stereonet.py:normal_errors", "attitude/stereonet.py:iterative_normal_errors"]}
{"id": "C57", "title": "Error sheets enclose the nominal plane symmetrically", "statement": "Every nominal point of plane_errors lies in the plane; the upper sheet is below it and the lower sheet above it, they are mirror images in the plane and opposite points are antipodal; at each azimuth u the angle between sheet and plane is arctan(2*d2*level/|(d0 cos u, d1 sin u)|).", "quantifier": "all orthonormal axes, positive diagonal covariances, levels and azimuths", "why_tests_cant": "continuum", "anchors": ["attitude/stereonet.py:plane_errors"]}
{"id": "C58", "title": "Plane errors and normal errors are dual", "statement": "The angle between a normal_errors point and the mean normal equals the angle between the corresponding plane_errors sheet point (level 1) and the plane, for every azimuth.", "quantifier": "all axes, positive covariances and azimuths", "why_tests_cant": "continuum", "anchors": ["attitude/stereonet.py:normal_errors", "attitude/stereonet.py:plane_errors"]}
{"id": "C59", "title": "normal_errors ignores level", "statement": "normal_errors returns the same points for every level, whereas plane_errors sheets move monotonically away from the plane as level grows.", "quantifier": "all levels, axes, covariances", "why_tests_cant": "universally ignored keyword", "anchors": ["attitude/stereonet.py:normal_errors"]}
{"id": "C60", "title": "Translating a conic translates its points", "statement": "A point p lies inside/on conic.translate(v) exactly when p - v lies inside/on the conic, in any dimension, and the centre moves by v.", "quantifier": "every symmetric matrix of any dimension, every point and vector", "why_tests_cant": "all dimensions and reals", "anchors": ["attitude/geom/conics.py:Conic.translate", "attitude/geom/conics.py:Conic.contains", "attitude/geom/conics.py:Conic.center"]}
{"id": "C61", "title": "Transforming a conic pulls back its points", "statement": "conic.transform(T) evaluated at x equals conic evaluated at T x for every (also non-square) matrix T, so transformations compose and identity does nothing.", "quantifier": "every conic and matrices of any compatible dimensions", "why_tests_cant": "all dimensions", "anchors": ["attitude/geom/conics.py:Conic.transform", "attitude/geom/conics.py:Conic.solve"]}
{"id": "C62", "title": "Centre of a conic is its symmetry centre", "statement": "When the quadratic part is invertible, center() exists and reflection through it preserves the conic; it is the only such point.", "quantifier": "every symmetric conic of any dimension over any field of characteristic not 2", "why_tests_cant": "all dimensions", "anchors": ["attitude/geom/conics.py:Conic.center"]}
{"id": "C63", "title": "Pole and polar plane are mutually inverse", "statement": "pole(polar_plane(v)) == v for every invertible conic and vector, and reciprocity holds: p lies on the polar of q iff q lies on the polar of p; a point lies on its own polar iff it lies on the conic.", "quantifier": "every invertible symmetric conic of any dimension", "why_tests_cant": "all dimensions", "anchors": ["attitude/geom/conics.py:Conic.polar_plane", "attitude/geom/conics.py:Conic.pole"]}
{"id": "C64", "title": "Dual conic consists of the tangent planes", "statement": "For an invertible symmetric conic, a plane satisfies the dual conic's equation iff it is the polar (tangent) plane of a homogeneous point on the conic; dual is an involution and commutes contravariantly with invertible transforms.", "quantifier": "every invertible symmetric conic of any dimension", "why_tests_cant": "all dimensions", "anchors": ["attitude/geom/conics.py:Conic.dual"]}
{"id": "C65", "title": "Slicing a conic by a plane", "statement": "For a plane with non-zero normal, a point (u,v) satisfies the sliced conic's equation iff the 3-D point pt + u*axis1 + v*axis2 satisfies the original conic, and these 3-D points are exactly the points of the plane when the axes are chosen automatically.", "quantifier": "every conic, plane with non-zero normal and parameter pair", "why_tests_cant": "continuum", "anchors": ["attitude/geom/conics.py:Conic.slice", "attitude/geom/util.py:perpendicular_vector", "attitude/geom/util.py:Plane.offset"]}
{"id": "C66", "title": "Projection slices at the points of tangency", "statement": "A point of the conic lies in the plane used by projection() exactly when the line of sight from the viewpoint to that point is tangent to the conic there.", "quantifier": "every symmetric conic, viewpoint and point", "why_tests_cant": "continuum", "anchors": ["attitude/geom/conics.py:Conic.projection", "attitude/geom/conics.py:Conic.polar_plane"]}
{"id": "C67", "title": "perpendicular_vector", "statement": "In three dimensions perpendicular_vector(n) is non-zero and perpendicular to n for every non-zero n and raises ValueError exactly for n=0. So does the vector form called by slices, which raises ValueError exactly for zero normals and in other dimensions than two and three.", "quantifier": "every 3-vector", "why_tests_cant": "continuum", "anchors": ["attitude/geom/util.py:perpendicular_vector"]}
{"id": "C68", "title": "perpendicular_vector in the plane is perpendicular only on the coordinate axes", "statement": "In two dimensions perpendicular_vector(n) is perpendicular to n exactly when n lies on a coordinate axis.", "quantifier": "every 2-vector", "why_tests_cant": "fails generically but holds on coordinate axes used in tests", "anchors": ["attitude/geom/util.py:perpendicular_vector"]}
{"id": "C69", "title": "Plane offset is the foot of the perpendicular", "statement": "Plane.offset() lies on the plane and is the point of the plane nearest the origin, and normal() is a unit vector.", "quantifier": "every plane with non-zero normal", "why_tests_cant": "continuum", "anchors": ["attitude/geom/util.py:Plane.offset", "attitude/geom/util.py:Plane.hessian_normal"]}
{"id": "C70", "title": "is_elliptical recognises ellipsoids", "statement": "is_elliptical() is true for every conic with positive-definite quadratic part.", "quantifier": "every positive-definite quadratic part of any dimension", "why_tests_cant": "continuum", "anchors": ["attitude/geom/conics.py:Conic.is_elliptical"]}
{"id": "C71", "title": "is_elliptical is true for some hyperboloids", "statement": "For axis-aligned quadrics of any dimension is_elliptical() is true exactly when no diagonal entry is zero and the number of negative ones is even (is_hyperbolic(): odd), so in three dimensions two-sheeted hyperboloids are reported as elliptical; in two dimensions is_elliptical() is true exactly for definite quadratic parts.", "quantifier": "every diagonal quadratic part", "why_tests_cant": "needs particular signature", "anchors": ["attitude/geom/conics.py:Conic.is_elliptical", "attitude/geom/conics.py:Conic.is_hyperbolic"]}
{"id": "C72", "title": "semiaxes of from_semiaxes are squared", "statement": "Conic.from_semiaxes(a).semiaxes() returns the squares of a; it returns a itself exactly when every semi-axis is 1.", "quantifier": "every vector of positive semi-axes of any dimension", "why_tests_cant": "continuum", "anchors": ["attitude/geom/conics.py:Conic.semiaxes", "attitude/geom/conics.py:Conic.from_semiaxes"]}
{"id": "C73", "title": "major_axes of an axis-aligned ellipsoid", "statement": "For the origin-centred axis-aligned ellipsoid with distinct semi-axes a_i every row of major_axes() lies along a coordinate axis. When the a_i increase, the row along i has length 1/a_i, so its end lies on the ellipsoid exactly when a_i=1. In the plane with decreasing semi-axes the two lengths are exchanged, and in space a cyclic order assigns the lengths to wrong axes.", "quantifier": "every origin-centred axis-aligned ellipsoid with distinct positive semi-axes, every SVD", "why_tests_cant": "continuum", "anchors": ["attitude/geom/conics.py:Conic.major_axes"]}
{"id": "C74", "title": "Hyperbolic error band: curve, symmetry, and the view planes where it is on the hyperboloid", "statement": "For a three-dimensional view, hyperbolic_errors returns a nominal line through the mean in a unit direction (c,s) and two edges at distance y on either side of it with y > 0 and y**2*|q1| - x**2*|q0| = 1, q_i being the value of the ellipsoid's inverse form along view axis i. The band is symmetric about the nominal line and its width grows strictly with |x|. When the first view axis lies in the plane of the first two principal axes and the second is along the third, the edges lie on the error hyperboloid; there are oblique views where they do not (witness).", "quantifier": "all non-zero hyperbolic axes, transformations, view axes, means and x values", "why_tests_cant": "continuum", "anchors": ["attitude/display/hyperbola.py:hyperbolic_errors", "attitude/display/hyperbola.py:hyperbola_values"]}
{"id": "C75", "title": "Angular errors are the asymptotes of the error hyperbola", "statement": "The half-opening angle of the error band approaches arctan(sqrt(h2/h0)): the angular error; every line through the centre flatter than it stays strictly inside the band.", "quantifier": "all positive axis lengths", "why_tests_cant": "limit statement", "anchors": ["attitude/display/hyperbola.py:hyperbolic_errors", "attitude/error/axes.py:angular_errors"]}
{"id": "C76", "title": "Apparent dip correction is a rotation", "statement": "apparent_dip_correction returns a rotation matrix (orthonormal rows, determinant 1) for every non-empty first axis, including a vertical one (where the cosine is NaN, the comparison fails, and the identity is returned); without axes it raises TypeError, with an empty list IndexError. The rotation angle is the plunge of the first axis, or zero when the squared sine of the plunge is at most 1e-12.", "quantifier": "all lists of axes", "why_tests_cant": "continuum", "anchors": ["attitude/display/hyperbola.py:apparent_dip_correction"]}
{"id": "C77", "title": "Apparent dip correction loses the sign of the tilt", "statement": "For a first axis (cos t,0,sin t) with |t|<90 degrees the correction rotates by |t| whatever the sign of t (and not at all when sin(t)**2 <= 1e-12); it equals the rotation by t exactly when t = 0, or t > 0 above the threshold.", "quantifier": "all tilts", "why_tests_cant": "sign-dependent", "anchors": ["attitude/display/hyperbola.py:apparent_dip_correction"]}
{"id": "C78", "title": "Least-squares optimality of Regression", "statement": "Regression of an n-by-3 array raises LinAlgError exactly when the points share a vertical plane; otherwise its two slopes, with the intercept that puts the mean on the plane, are the unique minimiser of the sum of squared vertical residuals over all planes z=ax+by+c of the original points, the third coefficient is zero, and the residuals are orthogonal to x, y and 1.", "quantifier": "every non-empty n-by-3 array and every competitor plane", "why_tests_cant": "continuum of competitors", "anchors": ["attitude/orientation/linear/regression.py:Regression.coefficients", "attitude/orientation/linear/regression.py:Regression.residuals"]}
{"id": "C79", "title": "Exact planes are recovered by both methods with equal strike and dip", "statement": "For points lying exactly on a non-vertical plane z=ax+by+c, Regression recovers (a,b,0) and LinearOrientation's dip equals PCA's; when the plane is not horizontal the strikes agree modulo 360. For any data LinearOrientation's strike and dip are those of the plane with the fitted slopes.", "quantifier": "every non-degenerate point set on every non-vertical plane", "why_tests_cant": "continuum", "anchors": ["attitude/orientation/linear/__init__.py:LinearOrientation.strike_dip", "attitude/orientation/linear/regression.py:Regression.coefficients", "attitude/orientation/pca.py:PCAOrientation.strike_dip"]}
{"id": "C80", "title": "Regression on tuple-of-columns input ignores the data", "statement": "For (x,y,z) column input with more than three points Regression removes from each point the mean of its own x, y and z, so the fitted coefficients are (-1,-1,0) whatever the data (or LinAlgError is raised); there are exact planes whose coefficients are lost.", "quantifier": "every data set with n>3 in column layout", "why_tests_cant": "the centring happens along the wrong axis only for this layout", "anchors": ["attitude/orientation/linear/regression.py:Regression.__init__"]}
{"id": "C81", "title": "Stereonet coordinate change round trip", "statement": "to_stereonet and from_stereonet are mutually inverse: they return the same direction vector for every longitude and latitude, and the same angles inside the chart; from_stereonet sends the x, y and z axes to -z, x and y. The Cartesian vector of a longitude and latitude has unit length, and the angles are read back from it by arctan2 and arcsin.", "quantifier": "every longitude and latitude", "why_tests_cant": "continuum including poles", "anchors": ["attitude/coordinates/rotations.py:from_stereonet", "attitude/coordinates/rotations.py:to_stereonet"]}
{"id": "C82", "title": "Spherical round trip swaps x and y", "statement": "For a non-zero vector spherical returns its norm and angles from which cartesian computes (y,x,z), so the round trip is the identity exactly when x=y. Passing spherical's array to cartesian directly raises ValueError unless there are exactly three points, and for three points the result is neither the input nor its swap.", "quantifier": "every non-zero vector", "why_tests_cant": "only holds on the diagonal x=y", "anchors": ["attitude/coordinates/__init__.py:spherical", "attitude/coordinates/__init__.py:cartesian"]}
{"id": "C83", "title": "rotations.transform never returns a rotation", "statement": "transform is NaN exactly for parallel or zero vectors. Otherwise all its entries are positive, the diagonal is 1, opposite entries are reciprocal and every row is longer than 1, so it is never orthogonal; a vector with non-negative components is never mapped onto the direction of one that has a non-positive component.", "quantifier": "all pairs of vectors", "why_tests_cant": "continuum", "anchors": ["attitude/coordinates/rotations.py:transform"]}
{"id": "C84", "title": "clean_coordinates removes exactly the invalid rows", "statement": "clean_coordinates returns, in order, exactly the rows without NaN, and its message reports the number kept and, when some were removed, the number removed.", "quantifier": "every array with NaNs anywhere", "why_tests_cant": "all NaN patterns", "anchors": ["attitude/helpers/dem.py:clean_coordinates"]}
{"id": "C85", "title": "offset_mask returns the minimum bounding rectangle", "statement": "For a mask with at least one true pixel the returned window contains every true pixel, every border row and column of it contains a true pixel, and the returned array is the mask restricted to the window; for an empty mask the window is empty.", "quantifier": "every boolean matrix of every size", "why_tests_cant": "all masks of all sizes", "anchors": ["attitude/helpers/dem.py:offset_mask"]}
{"id": "C86", "title": "extract_area returns exactly the valid pixels in the polygon", "statement": "extract_area returns exactly the row-major enumeration of the raster's pixels that are inside the mask and valid in the DEM, each as its pixel-centre coordinates under the DEM's affine transform and its elevation; shrinking the mask to its bounding box first loses and moves nothing, and no row occurs twice when the transform is invertible.", "quantifier": "every DEM, mask and affine transform", "why_tests_cant": "all rasters", "anchors": ["attitude/helpers/dem.py:extract_area", "attitude/helpers/dem.py:offset_mask"]}
{"id": "C87", "title": "Notebook embedding preserves exactly text without quotes, backslashes, placeholders and closing tags", "statement": "The script written by plot_interactive looks up the element it creates. A browser reading it gets back any JSON text without single quotes, backslashes, line ends, the hash placeholder or a closing script tag. For a JSON string the value arrives intact if and only if it holds no quote of either kind, no backslash and no control character. A closing script tag leaves no literal at all, and a placeholder in the data is replaced, changing the data. json.dumps followed by a JSON reader returns every string. The data holds one entry for each attitude handed over, in order, and one entry for a single attitude.", "quantifier": "every JSON text, every string of UTF-16 code units, every uuid", "why_tests_cant": "all strings", "anchors": ["attitude/display/nbextension.py:plot_interactive"]}
{"id": "C88", "title": "Saved test planes split back into the same number of blocks", "statement": "Splitting text joined with separator lines returns the original blocks, provided no block contains a separator line; for any text, nothing but separator lines is lost and there is one block more than separators. A separator is a line of three dashes apart from white space on either side, the four separator characters of ASCII included.", "quantifier": "all lists of blocks", "why_tests_cant": "all texts", "anchors": ["attitude/test/io.py:__split_text"]}
{"id": "C89", "title": "After a flipping call the cached U no longer matches the axes", "statement": "For an unweighted fit whose third axis points down, after as_conic() or normal_errors() the product U @ diag(singular_values) @ V is minus the centred array (U keeps its old sign while the axes are negated); for all other fits and histories it stays equal to the centred array.", "quantifier": "every unweighted fit and every finite call history", "why_tests_cant": "the sign of the third axis is LAPACK's choice and histories are unbounded", "anchors": ["attitude/orientation/pca.py:PCAOrientation.U", "attitude/orientation/pca.py:PCAOrientation.as_conic", "attitude/stereonet.py:normal_errors"]}
{"id": "C90", "title": "Sampling and Francq error axes are always ordered", "statement": "With the sampling method and with the Francq axes the in-plane error axes are proportional to the eigenvalues, so the minimum angular error never exceeds the maximum one, whatever the confidence level.", "quantifier": "every fit with n>=3, every confidence level with a non-negative statistic", "why_tests_cant": "inequality over all data and levels", "anchors": ["attitude/error/axes.py:sampling_axes", "attitude/error/axes.py:francq_axes"]}
{"id": "C91", "title": "Babamoradi axes give level-independent angular errors", "statement": "The Babamoradi axes are a positive multiple of the eigenvalues on all three axes, so the angular errors computed from them do not depend on the confidence level at all.", "quantifier": "every fit with n>=3 and every level with a positive F quantile", "why_tests_cant": "needs all levels and data", "anchors": ["attitude/error/axes.py:babamoradi_axes", "attitude/error/axes.py:angular_errors"]}
{"id": "C92", "title": "Reconstructed axes are left-handed", "statement": "For every dip in [-90,90] the axes of a ReconstructedPlane have determinant -1: axis 0 cross axis 1 is minus axis 2.", "quantifier": "every strike, rake and dip in [-90,90]", "why_tests_cant": "a sign convention that holds for a continuum of angles; the package has no test of the orientation of the axes", "anchors": ["attitude/orientation/reconstructed.py:ReconstructedPlane.__init__"]}
{"id": "C93", "title": "An existing group keeps a member's link only if the member is not listed after it", "statement": "create_groups(copy=False) clears every orientation's parent and relinks group members in one pass, so after a successful call a member of exactly one group of the list points to that group iff the member does not come after the group in the list; a group listed before its member loses the member's parent link (witness), although the group still lists the member.", "quantifier": "every reachable heap, every list of distinct orientations and every uid lists", "why_tests_cant": "depends on list order, all histories", "anchors": ["attitude/orientation/grouped.py:create_groups"]}
{"id": "C94", "title": "A failed grouping makes its arguments unexportable", "statement": "In every reachable state to_mapping() of an orientation succeeds unless its parent is a group whose construction failed, in which case it raises AttributeError; after GroupedOrientation fails because one argument is a group, every earlier argument is in that state (witness).", "quantifier": "every reachable heap, every orientation and user values, every failing call", "why_tests_cant": "needs a failed call followed by an export", "anchors": ["attitude/orientation/pca.py:PCAOrientation.to_mapping", "attitude/orientation/grouped.py:GroupedOrientation.__init__", "attitude/orientation/base.py:BaseOrientation.hash"]}
{"id": "C95", "title": "References between exported planes are closed", "statement": "After a successful create_groups call with disjoint uid lists, whenever the mapping of a returned plane has a member_of entry, some returned plane's mapping has that value as uid and lists the first plane's uid among its members.", "quantifier": "every reachable heap, list of orientations and disjoint uid lists, copy True or False", "why_tests_cant": "all histories and digests", "anchors": ["attitude/orientation/grouped.py:create_groups", "attitude/orientation/pca.py:PCAOrientation.to_mapping", "attitude/orientation/grouped.py:GroupedOrientation.to_mapping"]}
{"id": "C96", "title": "error_ellipse ignores its arguments", "statement": "stereonet.error_ellipse returns exactly three points for every positive diagonal covariance; they depend only on the number of points and the layout, not on axes, covariance or level, and the third is the direction (1,1,1). Fewer than three points raise IndexError.", "quantifier": "all axes, positive diagonal covariances, levels, n, layouts", "why_tests_cant": "continuum; a test only compares runs", "anchors": ["attitude/stereonet.py:error_ellipse"]}
{"id": "C97", "title": "Girdle width of a reconstructed plane", "statement": "The girdle of a ReconstructedPlane with angular errors a, b has half-width arctan(2 tan(b/2)) along its first axis and arctan(2 tan(a/2)) along its second, strictly between half the angular error and the angular error.", "quantifier": "all strikes, dips in [0,90), rakes, angular errors in (0,180), normal errors", "why_tests_cant": "continuum", "anchors": ["attitude/orientation/reconstructed.py:ErrorShell.cartopy_girdle", "attitude/stereonet.py:plane_errors"]}
{"id": "C98", "title": "Stereonet patches show the directions they were computed from", "statement": "After the sign changes in girdle_error and pole_error every vertex stands, in mplstereonet's convention, for the direction it was computed from, with the lower sheet in reverse order; without them the traditional layouts of girdle and pole are mutually inconsistent unless a northward component vanishes, while the other layout is consistent.", "quantifier": "all axes, positive covariances, all vertices", "why_tests_cant": "continuum", "anchors": ["attitude/display/stereonet.py:girdle_error", "attitude/display/stereonet.py:pole_error"]}
{"id": "C99", "title": "normal_errors turns the caller's axes upwards", "statement": "normal_errors negates the caller's axes array when the third axis points down and is idempotent; a girdle drawn afterwards consists of the same points half a turn along.", "quantifier": "all axes, covariances, levels, layouts, odd numbers of points", "why_tests_cant": "aliasing over all inputs", "anchors": ["attitude/stereonet.py:normal_errors", "attitude/stereonet.py:plane_errors"]}
{"id": "C100", "title": "Normal cone and girdle are polar only on the principal axes", "statement": "For upward axes the normal_errors point and the lower plane_errors point at the same angle are perpendicular iff the in-plane lengths are equal or the angle is a multiple of 90 degrees.", "quantifier": "all orthonormal axes, positive covariances, n, i", "why_tests_cant": "continuum", "anchors": ["attitude/stereonet.py:normal_errors", "attitude/stereonet.py:plane_errors"]}
{"id": "C101", "title": "error_coords has one entry per level", "statement": "error_coords returns an entry per requested level in order, each with that level's sheets and the same three-point ellipse; without levels the single entry is level 1; with fewer than three points it raises IndexError unless the ellipse is switched off or no level is requested.", "quantifier": "all axes, positive diagonal covariances, level lists, n, layouts", "why_tests_cant": "all level lists", "anchors": ["attitude/stereonet.py:error_coords"]}
{"id": "C102", "title": "Angle subtended by a sphere", "statement": "For a sphere of radius r whose centre is at distance D>r from the origin, angle_subtended() returns arctan(|v|/(r*sqrt(D**2-r**2))) twice, v being the perpendicular vector chosen for the slice; this is the half angle asin(r/D) between the centre and the tangent points exactly when |v| = r**2. The first angle returned is never the smaller one, and neither is negative.", "quantifier": "every sphere not containing the viewpoint, every SVD", "why_tests_cant": "right for a unit sphere seen perpendicular to z", "anchors": ["attitude/geom/conics.py:angle_subtended", "attitude/geom/conics.py:Conic.projection", "attitude/geom/conics.py:Conic.major_axes"]}
{"id": "C103", "title": "Two-dimensional slices leave the line", "statement": "slice() of a two-dimensional conic parametrises the line through the offset point in direction n[::-1]; these points are on the slicing line exactly when its normal is along a coordinate axis, otherwise only the offset point is.", "quantifier": "every two-dimensional conic and line with non-zero normal", "why_tests_cant": "right for coordinate lines", "anchors": ["attitude/geom/conics.py:Conic.slice", "attitude/geom/util.py:perpendicular_vector"]}
{"id": "C104", "title": "Two-dimensional hyperbolic errors need axes and then agree with hyperbola_values", "statement": "With two hyperbolic axes and no view axes hyperbolic_errors always raises TypeError; with any non-empty first view axis it returns the values of hyperbola_values rotated by one rotation, and those values satisfy y > 0 and y**2/h1 - x**2/h0 = 1.", "quantifier": "all non-zero (positive) axes, x values, view axes", "why_tests_cant": "continuum; the documented default is never exercised in two dimensions", "anchors": ["attitude/display/hyperbola.py:hyperbolic_errors", "attitude/display/hyperbola.py:hyperbola_values"]}
{"id": "C105", "title": "A zero hyperbolic axis makes the error band raise", "statement": "If any hyperbolic axis is zero (exact plane, or zero variance) hyperbolic_errors raises LinAlgError whatever the other arguments.", "quantifier": "all axis lists of any length containing zero", "why_tests_cant": "singular matrix path on every length", "anchors": ["attitude/display/hyperbola.py:hyperbolic_errors", "attitude/geom/conics.py:Conic.dual"]}
{"id": "C106", "title": "hyperbolic_errors_parametric draws a distorted band", "statement": "For every pair of semi-axes the edge returned by hyperbolic_errors_parametric has a point off the error hyperbola, because the first semi-axis length is used as an angle; the mean is added once to the nominal line and twice (once rotated) to the edge; for a first semi-axis below pi the last of the 502 points of the lower edge is on the upper side.", "quantifier": "all positive hyperbolic axes with first semi-axis at least 1e-5, all means", "why_tests_cant": "holds for every size of the axes, including those where the sample looks plausible", "anchors": ["attitude/display/hyperbola.py:hyperbolic_errors_parametric"]}
{"id": "C107", "title": "Regression covariance is not divided by the degrees of freedom", "statement": "For n-by-3 input whose xy-positions are not collinear the covariance matrix is symmetric and its product with the normal matrix of the centred regressors is the full residual sum of squares times the identity, i.e. n-3 times the unbiased estimate; for three points it is zero; all three standard errors always exist.", "quantifier": "every non-degenerate n-by-3 array", "why_tests_cant": "continuum; the missing division is invisible without an independent formula", "anchors": ["attitude/orientation/linear/regression.py:Regression.covariance_matrix", "attitude/orientation/linear/regression.py:Regression.standard_errors"]}
{"id": "C108", "title": "LinearOrientation rotates the covariance the wrong way", "statement": "The rotated covariance is the covariance of the rotated coefficients exactly when sin(2 azimuth)=0 or the covariance is isotropic in the first two coefficients; a four-point data set violates it. The errors reported with the angles are always defined and non-negative. Their squares are the variances of the coefficients along and across the azimuth.", "quantifier": "every non-degenerate n-by-3 array", "why_tests_cant": "continuum; agrees on axis-aligned data", "anchors": ["attitude/orientation/base.py:BaseOrientation.rotated_covariance", "attitude/orientation/linear/__init__.py:LinearOrientation.__init__"]}
{"id": "C109", "title": "Stereonet conversion is a reflection and disagrees with stereonet_transformation", "statement": "from_stereonet preserves angles between directions and reverses the sign of every triple product; it agrees with the matrix of stereonet_transformation exactly on the directions with x=0 and y=z.", "quantifier": "every triple of directions", "why_tests_cant": "continuum", "anchors": ["attitude/coordinates/rotations.py:from_stereonet", "attitude/coordinates/rotations.py:stereonet_transformation"]}
{"id": "C110", "title": "Plane and normal error axes are reciprocal", "statement": "to_normal_errors and from_normal_errors are mutually inverse on non-zero axes, keep the third axis, make each pair of axes multiply to the square of the third, and reverse the order of the axes. The bounds made from a nominal value and a width are centred on the value, lower bound first.", "quantifier": "every vector of non-zero axes", "why_tests_cant": "continuum", "anchors": ["attitude/error/__init__.py:to_normal_errors", "attitude/error/__init__.py:from_normal_errors"]}
{"id": "C111", "title": "Covariance ellipses lie on the contour of their level", "statement": "For a symmetric positive definite 2x2 covariance and any valid singular value decomposition, ellipse returns n points all at Mahalanobis distance level from the centre, and points half a turn apart are opposite about the centre. rotate_2D composes additively and is a rotation.", "quantifier": "every covariance, centre, level, n and decomposition", "why_tests_cant": "continuum, and singular vectors are only determined up to sign", "anchors": ["attitude/error/ellipse.py:ellipse", "attitude/orientation/base.py:ellipse", "attitude/geom/transform.py:rotate_2D"]}
{"id": "C112", "title": "extract_line keeps the line's horizontal positions", "statement": "The x and y columns returned by extract_line are the vertices of the line, in order, when it is not subdivided; a subdivision that keeps the vertices loses none of them and one that only adds points on segments adds none off the line.", "quantifier": "every raster, every invertible affine transform, every line and subdivision function", "why_tests_cant": "round trip through pixel space for all transforms", "anchors": ["attitude/helpers/dem.py:extract_line"]}
{"id": "C113", "title": "Elevations along a line equal the raster's bilinear interpolation away from the window's edge", "statement": "extract_line reads the smallest window of whole pixels holding the line. Points at least half a pixel inside that window get the value the bilinear interpolation of the full raster would give; closer to the window's edge this fails: a raster holding a plane is not sampled on that plane (witness), since the window is not padded by the neighbouring samples.", "quantifier": "every raster size, transform and line; a concrete witness for the failing part", "why_tests_cant": "needs every position relative to the window", "anchors": ["attitude/helpers/dem.py:extract_line", "attitude/helpers/interpolation.py:bilinear"]}
{"id": "C114", "title": "Saved test planes are read back only when a single matrix is saved", "statement": "A matrix with at least two rows and two columns saved by save_test_plane is read back equal by load_test_plane. A single row is read back as a vector. Saving more than one array always raises TypeError, since a string is printed to a file opened in binary mode, and leaves only the first array in the file.", "quantifier": "every value type and number format that parses back, every matrix, every number of arrays", "why_tests_cant": "all matrices and formats", "anchors": ["attitude/test/io.py:save_test_plane", "attitude/test/io.py:load_test_plane"]}
{"id": "C115", "title": "Browser outline generator stays on the ellipse and counts correctly", "statement": "The point generator of math.ts (ellipse) returns 2*ceil(n/2) points for any positive n, every one of them on the ellipse with the requested semiaxes, symmetric about one axis, heights rising evenly from -a; the list is used as a polygon ring but its last point never repeats the first, which GeoJSON rings must (refuted).", "quantifier": "every positive number of points n and all nonzero semiaxes", "why_tests_cant": "all n, parity cases and real semiaxes", "anchors": ["frontend/packages/attitude/src/math.ts:ellipse"]}
{"id": "C116", "title": "Browser girdles lie on the plane and on the error cone", "statement": "Every point of planeErrors is finite and, read back as a direction in space, is perpendicular to the axis for the nominal sheet and exactly on the elliptical error cone for the other two, on opposite sides; on upper-hemisphere plots the sheet called upper is the one below the plane. Negative squared lengths are drawn as if zero, unknown sheet names draw the nominal plane. The grouped plane gives the three curves in degrees, upper and lower on opposite sides of the nominal plane.", "quantifier": "every orthonormal axes, positive hyperbolic axes, n, degrees/system/hemisphere option", "why_tests_cant": "continuum of axes; all option combinations", "anchors": ["frontend/packages/attitude/src/math.ts:planeErrors", "frontend/packages/attitude/src/math.ts:cart2sph", "frontend/packages/attitude/src/math.ts:combinedErrors"]}
{"id": "C117", "title": "Reconstructed angular errors bound the girdle drawn in the browser", "statement": "The lengths made by reconstructErrors from a least and greatest angular error (degrees) make girdles whose points are between half the least and half the greatest error away from the plane, reaching both. A zero error makes a length infinite.", "quantifier": "every 0 < min <= max < 180, every orthonormal axes and option set", "why_tests_cant": "all errors and orientations", "anchors": ["frontend/packages/attitude/src/reconstruct.ts:reconstructErrors", "frontend/packages/attitude/src/math.ts:planeErrors"]}
{"id": "C118", "title": "Browser pole ellipses are polar to the error cone", "statement": "Every point of normalErrors at a level, read back as a direction, is on the cone dual to the error cone scaled by the level, on the side named by the sheet; at level 1 it is the normal of a plane touching the error cone. The result is non-finite exactly when one of the two in-plane lengths is zero, and has 2*ceil(n/2) points.", "quantifier": "every orthonormal axes, positive lengths, level, option set, n", "why_tests_cant": "continuum of axes and levels", "anchors": ["frontend/packages/attitude/src/math.ts:normalErrors"]}
{"id": "C119", "title": "deconvolveAxes and convolveAxes are not inverse", "statement": "For a matrix with unit columns scaled by positive lengths, deconvolveAxes returns those lengths and that matrix. convolveAxes scales rows, not columns, so deconvolveAxes does not undo it (witness with orthonormal axes); on orthonormal axes it does after transposing.", "quantifier": "every matrix with nonzero columns; a concrete witness for the failing part", "why_tests_cant": "all matrices", "anchors": ["frontend/packages/attitude/src/math.ts:convolveAxes", "frontend/packages/attitude/src/math.ts:deconvolveAxes"]}
{"id": "C120", "title": "cloneOptions loses falsy values and unknown keys", "statement": "cloneOptions keeps exactly the keys of the first object and takes a new value exactly when it is truthy. createErrorEllipse makes one set of options per level in a list, in order, each with its own level if that is not zero, and all other options unchanged; a level given alone is kept, 1 being the default. Level 0 in a list is labelled with the whole list (refuted), although the outline drawn is the one for level 0.", "quantifier": "every option object and every level list", "why_tests_cant": "all objects and values", "anchors": ["frontend/packages/attitude/src/util.ts:cloneOptions", "frontend/packages/attitude/src/functions.ts:createErrorEllipse"]}
{"id": "C121", "title": "Centroid helpers compute the weighted mean and the mid-range", "statement": "computeCentroidAverage of planes whose centres are the means of their points is the mean of all the points together, planes without points not counting; it raises when the page has no global d3, which the module does not import. computeCentroidExtrema is half way between least and greatest centre on each axis and raises on the empty list.", "quantifier": "every list of planes", "why_tests_cant": "all list lengths and weights", "anchors": ["frontend/packages/attitude/src/util.ts:computeCentroidAverage", "frontend/packages/attitude/src/util.ts:computeCentroidExtrema"]}
{"id": "C122", "title": "createErrorSurface returns the two rings but reverses the caller's data in place", "statement": "The surface's rings are the lower sheet and the reversed upper sheet, or both reversed, whichever contains the plane's first point; the arrays belong to the caller's object, so drawing twice from one object can give another polygon (refuted). __constructAxes turns a downward third axis up in the caller's own matrix, describes the same error cone, and changes nothing when called again; without axes it raises unless it can rebuild them from a strike.", "quantifier": "every containment predicate and all sheets and axes", "why_tests_cant": "any predicate; sequences of calls", "anchors": ["frontend/packages/attitude/src/functions.ts:createErrorSurface", "frontend/packages/attitude/src/functions.ts:__constructAxes"]}
{"id": "C123", "title": "fixAngle terminates with the same angle in [-pi, pi]", "statement": "Both loops of fixAngle end for every finite angle, the result differs from the argument by whole turns and is between -pi and pi; angles already in range are unchanged.", "quantifier": "every real angle", "why_tests_cant": "unbounded loop over all reals", "anchors": ["frontend/packages/attitude/src/hyperbola.ts:fixAngle"]}
{"id": "C124", "title": "Browser dip and apparent dip agree with the plane's geometry", "statement": "PlaneData.dip gives the angle from the vertical and the compass direction in which the axis leans. apparentDip is the downward slope of the plane in the azimuth asked for, whichever way the normal points; its sign factor is always 1; it has no value exactly for vertical planes.", "quantifier": "every nonzero normal and every azimuth", "why_tests_cant": "continuum of normals and azimuths", "anchors": ["frontend/packages/attitude/src/hyperbola.ts:PlaneData"]}
{"id": "C125", "title": "The rotation given to SVG draws the plane's trace", "statement": "For any two screen scales, including a downward y axis, every point of the plane in the vertical section along the viewpoint is on the rotated axis.", "quantifier": "every non-vertical plane, viewpoint and nonzero pair of scales", "why_tests_cant": "all planes, viewpoints and scales", "anchors": ["frontend/packages/attitude/src/hyperbola.ts:createTransform", "frontend/packages/attitude/src/hyperbola.ts:hyperbolicErrors"]}
{"id": "C126", "title": "Angular errors in a section are those of the error cone, unless the first axis points to negative y", "statement": "The half error computed by hyperbolicErrors is where the section of the error cone at the in-plane angle opens and lies between the errors of the two axes; for a horizontal plane whose first axis does not point to negative y it is the opening of the cone in the vertical section drawn; otherwise the arc cosine loses the sign and the wrong section is drawn (refuted). The polygon drawn is symmetric, passes the vertices of the hyperbola and ends on its asymptotes.", "quantifier": "every orthonormal axes, positive lengths, viewpoint; a concrete witness for the failing part", "why_tests_cant": "continuum of axes and viewpoints", "anchors": ["frontend/packages/attitude/src/hyperbola.ts:hyperbolicErrors", "frontend/packages/attitude/src/hyperbola.ts:__planeAngle"]}
{"id": "C127", "title": "Padding the sheet rounds it up to whole pages and adds nothing to the plots", "statement": "addEmptyRows keeps the rows given as a prefix, adds rows of six cells with a null value, and the result has the least multiple of the modulus that is at least the rows plus the target; the added rows contribute no orientation to the plots.", "quantifier": "every sheet, positive modulus, target and every way of parsing text and colours", "why_tests_cant": "unbounded state: sheets, lists and event sequences of any length", "anchors": ["frontend/packages/webapp/src/app.ts:addEmptyRows", "frontend/packages/webapp/src/app.ts:constructOrientation"]}
{"id": "C128", "title": "Edits are applied as asked and leave the errors ordered", "statement": "After a list of cell changes, the last write to each cell is in the sheet, other cells are as before, except that within a row the two error cells may be swapped so that the maximum error is never below the minimum; finalizing a row twice is the same as once. A change below the last row raises TypeError.", "quantifier": "every sheet, list of changes and way of parsing text", "why_tests_cant": "unbounded state: sheets, lists and event sequences of any length", "anchors": ["frontend/packages/webapp/src/sheet.ts"]}
{"id": "C129", "title": "An orientation is made from a row exactly when its five numbers parse", "statement": "constructOrientation returns an orientation exactly when the first five cells parse as numbers and the sixth cell exists; transformData and constructOrientation are inverse on orientations with valid colours; every orientation made after an edit has minimum error at most the maximum error.", "quantifier": "every row, sheet, list of edits, way of parsing text and of validating colours", "why_tests_cant": "unbounded state: sheets, lists and event sequences of any length", "anchors": ["frontend/packages/webapp/src/app.ts:constructOrientation", "frontend/packages/webapp/src/app.ts:transformData", "frontend/packages/webapp/src/sheet.ts"]}
{"id": "C130", "title": "Clicking toggles the selection", "statement": "After any list of clicks a plane is selected exactly when it was selected before and clicked an even number of times, or was not and clicked an odd number; the selection never holds a plane twice; repeating the same clicks restores the set.", "quantifier": "every selection without repetitions and list of clicks", "why_tests_cant": "unbounded state: sheets, lists and event sequences of any length", "anchors": ["frontend/packages/notebook-ui/src/index.ts:updateSelection"]}
{"id": "C131", "title": "Hovering over a plane of a group highlights the whole group, and a missing member breaks the list", "statement": "Hovering over a group or a member gives the group followed by its members; a plane in no known group gives itself. A list item raises TypeError exactly when a member before the item in the group, not found in the data, is reached. If all members of a group are in the data, exactly the items of the group and its members are highlighted; none is while nothing is hovered.", "quantifier": "every collection with distinct uids", "why_tests_cant": "unbounded state: sheets, lists and event sequences of any length", "anchors": ["frontend/packages/notebook-ui/src/index.ts:onHover", "frontend/packages/notebook-ui/src/components/list.ts:createListItem"]}
{"id": "C132", "title": "Dragging the stereonet depends only on the start and the current position", "statement": "While the button is down the longitude is the starting one plus a third of the horizontal distance up to whole turns, the latitude the starting one plus a third of the vertical distance limited to 90 degrees, the third angle 0, whatever the moves in between. Without the button down nothing changes; after a release the button is up; the latitude never leaves [-90, 90].", "quantifier": "every sequence of events and every starting rotation", "why_tests_cant": "unbounded state: sheets, lists and event sequences of any length", "anchors": ["frontend/packages/attitude/src/stereonet/interaction.ts"]}
{"id": "C133", "title": "Opacity falls with the error", "statement": "opacityByCertainty gives a fill between 0.1 and 0.8, not increasing with the error and strictly decreasing on [0, 5], 0.8 for no error and 0.1 above 5, and a more opaque outline at most 1. The ellipse style of the clipped stereonet gives an opacity in (0, 0.8], inversely proportional to the error, fill at most the outline; it is negative for a negative error (refuted).", "quantifier": "every positive exponent and every error; a concrete witness for the failing part", "why_tests_cant": "continuum of errors and exponents", "anchors": ["frontend/packages/attitude/src/stereonet/index.ts:opacityByCertainty", "frontend/packages/plots/src/vertical.ts:translucentEllipseStyle"]}
{"id": "C134", "title": "Meridian labels are compass azimuths", "statement": "The meridian on which a horizontal direction is plotted is labelled with that direction's azimuth, N, E, S, W for the four compass points. The meridian at -180, also north, is labelled 360 instead of N (refuted).", "quantifier": "every azimuth in [0, 360) and every number format", "why_tests_cant": "continuum of azimuths", "anchors": ["frontend/packages/plots/src/graticule-labels.ts:formatAzimuthLabel"]}
{"id": "C135", "title": "The side view is at true scale and fits vertically, but not horizontally", "statement": "A view is defined exactly when some plane is off the centre horizontally and some vertically; then one pixel is the same length on both axes and every centre is inside the vertical range. The horizontal offsets play no part in the scale, so centres can lie outside horizontally (refuted).", "quantifier": "every list of offsets; a concrete witness for the failing part", "why_tests_cant": "lists of any length of real offsets", "anchors": ["frontend/packages/notebook-ui/src/components/side-view.ts:componentDidMount"]}
{"id": "C136", "title": "The ellipsoid of a fit sits on the upward normal and shrinks with the level", "statement": "as_conic is the ellipsoid centred on the upward normal at the product of the two largest singular values, along the axes of the fit, with half-axes the roots of the noise variances divided by the level; it is symmetric about its centre, does not depend on earlier calls, and a higher level gives a strictly smaller ellipsoid. Afterwards the third axis points up.", "quantifier": "every data set with positive variances, non-zero level, SVD and earlier calls", "why_tests_cant": "holds for every data set and level; a test sees a few random planes", "anchors": ["attitude/orientation/pca.py:as_conic", "attitude/orientation/pca.py:augment"]}
{"id": "C137", "title": "The error ellipse of a fit always raises", "statement": "PCAOrientation.error_ellipse raises ValueError for every fit with positive variances: the points have four coordinates and the centre three.", "quantifier": "every data set with positive variances, level other than zero, SVD and earlier calls", "why_tests_cant": "a test shows one failing input; that none succeeds needs a proof", "anchors": ["attitude/orientation/pca.py:_ellipse", "attitude/orientation/pca.py:error_ellipse", "attitude/geom/conics.py:slice"]}
{"id": "C138", "title": "The hyperboloid of a fit surrounds the normal and is not the error surface", "statement": "as_hyperbola is the one-sheeted hyperboloid x^2/c0 + y^2/c1 = 1 + z^2/c2 in the frame of the axes (of the data with rotated=False). The normal never meets it. No point of the error surface z^2/c2 = 1 + x^2/c0 + y^2/c1 lies on it.", "quantifier": "every data set with positive variances, both settings, every point and earlier calls", "why_tests_cant": "holds for every data set and level; a test sees a few random planes", "anchors": ["attitude/orientation/pca.py:as_hyperbola", "attitude/geom/test_errors.py:test_conic_errors"]}
{"id": "C139", "title": "The cone of asymptotes is one only for equal entries", "statement": "For a hyperboloid about the third axis, asymptotes returns the requested number of vectors, closed, on the cone whose half-widths are the diagonal entries; they are directions of asymptotes exactly when the three entries are equal, and none is for the hyperboloid of the repository's test. A quadric centred elsewhere raises AssertionError.", "quantifier": "every diagonal hyperboloid and number of vectors", "why_tests_cant": "holds for every data set and level; a test sees a few random planes", "anchors": ["attitude/error/__init__.py:asymptotes", "attitude/geom/test_errors.py:test_conic_errors"]}
{"id": "C140", "title": "The coefficients of a fit are the total-least-squares solution", "statement": "For a plane that is not vertical and a smallest singular value below the second, beta = -(n_x, n_y)/n_z is the only solution of (X'X - s3^2 I) beta = X'y and minimises the sum of squared distances, which is then s3^2. For a vertical plane the equations have no unique solution.", "quantifier": "every data set, SVD and earlier calls", "why_tests_cant": "holds for every data set and level; a test sees a few random planes", "anchors": ["attitude/orientation/test_pca.py:test_pca_regression_variable", "attitude/orientation/pca.py:PCAOrientation"]}
{"id": "C141", "title": "The angle between fits is a distance, but not of planes", "statement": "fit_angle is between 0 and 180 degrees, symmetric, zero exactly for equal upward normals, and satisfies the triangle inequality. Two decompositions of the same points on a vertical plane can be 180 degrees apart.", "quantifier": "every three data sets", "why_tests_cant": "holds for every data set and level; a test sees a few random planes", "anchors": ["attitude/geom/__init__.py:fit_angle", "attitude/geom/util.py:angle"]}
{"id": "C142", "title": "Similarity vanishes for equal normals, but depends on the direction of the axes", "statement": "fit_similarity, when a number, is not negative and zero exactly for equal normals. A fit with positive variances compared with itself gives zero if its third axis points up and NaN if it points down; it is not symmetric; it does not change when the data are scaled or measured twice, so it is not a number of standard deviations.", "quantifier": "every pair of fits, data set, scale and SVD", "why_tests_cant": "holds for every data set and level; a test sees a few random planes", "anchors": ["attitude/geom/__init__.py:fit_similarity"]}
{"id": "C143", "title": "The aligned covariance has unit Frobenius norm and is no covariance", "statement": "aligned_covariance has Frobenius norm one, columns along those of the axes and as long as the rescaled variances, which sum to more than one. It need not be symmetric and then is the covariance in data coordinates for no variances.", "quantifier": "every data set with positive variances", "why_tests_cant": "holds for every data set and level; a test sees a few random planes", "anchors": ["attitude/geom/__init__.py:aligned_covariance"]}
{"id": "C144", "title": "Parametric conics lie on the curve they name", "statement": "hyperbola returns two arrays of the requested length whose drawn points lie on the hyperbola (opening up or sideways) about the centre; exactly the points of smallest and greatest abscissa are left out. ellipse returns closed arrays on the ellipse.", "quantifier": "every non-zero pair of semiaxes, centre and number of points", "why_tests_cant": "holds for every pair of semiaxes, centre and number of points; a test draws a few", "anchors": ["attitude/display/parametric.py:hyperbola", "attitude/display/parametric.py:ellipse"]}
{"id": "C145", "title": "The branches of a drawn hyperbola are apart only for some settings", "statement": "Opening up with an even number of points, the two branches are both drawn and never joined by a line. With 4q+3 points, and always when it opens sideways, a line joins the two branches.", "quantifier": "every pair of semiaxes, centre, and number of points in the stated class", "why_tests_cant": "holds for every pair of semiaxes, centre and number of points; a test draws a few", "anchors": ["attitude/display/parametric.py:hyperbola", "attitude/display/parametric.py:remove_asymptotes"]}
{"id": "C146", "title": "The lines drawn for the normals touch the ellipse of normals", "statement": "In plot_conjugate_conics the lines drawn for the hyperbola are its asymptotes; the lines drawn for the normals are perpendicular to them and touch the drawn ellipse. Of the three ellipses in the file, the inverse one touches for every scale, the reverse one only for scale +-1, and the squished one never.", "quantifier": "every pair of semiaxes, scale and setting", "why_tests_cant": "holds for every pair of semiaxes, centre and number of points; a test draws a few", "anchors": ["attitude/display/parametric.py:plot_conjugate_conics", "attitude/display/parametric.py:__inverse_ellipse", "attitude/display/parametric.py:__reverse_ellipse", "attitude/display/parametric.py:__squished_ellipse"]}
{"id": "C147", "title": "The marked points are foci of the hyperbola, and of the ellipse only if it is upright", "statement": "The points marked for the hyperbola are its foci. Those marked for the ellipse are its foci exactly when the second semiaxis is not greater than the first. Asking for the inverse hyperboloid raises NameError.", "quantifier": "every pair of semiaxes and width", "why_tests_cant": "holds for every pair of semiaxes, centre and number of points; a test draws a few", "anchors": ["attitude/display/parametric.py:plot_conjugate_conics"]}
{"id": "C148", "title": "The default window can cut the ellipse of normals", "statement": "The default window always shows the whole variance ellipse, and shows the whole ellipse of normals exactly when b <= a/2 or 5(1+sqrt 2) b <= 9 sqrt(a^2+b^2).", "quantifier": "every pair of positive semiaxes", "why_tests_cant": "holds for every pair of semiaxes, centre and number of points; a test draws a few", "anchors": ["attitude/display/parametric.py:plot_conjugate_conics"]}
{"id": "C149", "title": "The vertices of the polar plot are the error normals of the plane", "statement": "pole_error turns every vertex of the error cone of a diagonal covariance into an angle and a radius in 0..180 degrees that name exactly the direction stereonet.error_coords gives for the same fit; each lies on the elliptic cone of normals around the upward pole. The call leaves the axes of the fit turned upward, and doing it again gives the same figure. pole puts strike and dip at the upward normal of the plane.", "quantifier": "every orthonormal frame, diagonal covariance with positive first two entries, number of vertices, strike and dip", "why_tests_cant": "holds for every fit, covariance and list; a test looks at one figure", "anchors": ["attitude/display/polar.py:pole_error", "attitude/display/polar.py:pole"]}
{"id": "C150", "title": "The heights of an aligned figure are distances from the fitted plane, sometimes upside down", "statement": "The points drawn by plot_aligned are the centred data in the frame of the axes, with their distances from the centre; the height is the signed distance from the plane measured along the normal if the third axis points up, against it otherwise. The reversal in the code is never made, so some fits are drawn upside down.", "quantifier": "every weighted or unweighted fit and every row", "why_tests_cant": "holds for every fit, covariance and list; a test looks at one figure", "anchors": ["attitude/display/pca_aligned.py:plot_aligned"]}
{"id": "C151", "title": "Thinning keeps a regular subset of at most ten thousand points", "statement": "With sparse set, at most 10000 points are drawn, all of them data, every k-th one from the first, more than half the maximum; 10000 points or fewer are all drawn. Without it all are drawn.", "quantifier": "every list of points of any length", "why_tests_cant": "holds for every fit, covariance and list; a test looks at one figure", "anchors": ["attitude/display/pca_aligned.py:plot_aligned"]}
{"id": "C152", "title": "The greatest residual printed is a range, and the height of the figure is bounded", "statement": "The number printed as the greatest residual is between once and twice the greatest distance from the plane, and can be exactly twice. The height of the figure is undefined exactly when all points coincide, and otherwise at least 3 and in the ratio of the extents above that.", "quantifier": "every fit with any number of points", "why_tests_cant": "holds for every fit, covariance and list; a test looks at one figure", "anchors": ["attitude/display/pca_aligned.py:plot_aligned"]}
{"id": "C153", "title": "The angle in the title of a section is the full opening of the error band", "statement": "The angle written above the first two sections is twice the angular error of that axis, between 0 and 180 degrees, and lines through the centre stay inside the band exactly when they are no steeper than half of it.", "quantifier": "every triple of hyperbolic axes and every fit for which they are defined", "why_tests_cant": "holds for every fit, covariance and list; a test looks at one figure", "anchors": ["attitude/display/pca_aligned.py:plot_aligned", "attitude/error/axes.py:angular_errors"]}
{"id": "C154", "title": "The band of the long section covers all points, that of the short section may not", "statement": "The band drawn in the first section has 100 abscissae that reach past every point drawn. In the second section, which uses the extent of the first axis, points can lie beyond the end of the band.", "quantifier": "every fit, axes and thinning", "why_tests_cant": "holds for every fit, covariance and list; a test looks at one figure", "anchors": ["attitude/display/pca_aligned.py:plot_aligned"]}
{"id": "C155", "title": "The window of the error comparison depends on which point comes first", "statement": "The default window of error_comparison has non-negative width and shows the first point; the same points in another order can give a window that leaves points out.", "quantifier": "every non-empty array of rotated points", "why_tests_cant": "holds for every fit, covariance and list; a test looks at one figure", "anchors": ["attitude/display/error_comparison.py:error_comparison"]}
{"id": "C156", "title": "The 2-D error band lies on its hyperbola, its lower edge only without rotation", "statement": "The upper edge returned by the 2-D hyperbola is on the rotated and shifted hyperbola of the covariance; the lower edge is if the frame does not mix the ordinate into the abscissa, and can be off it otherwise. Without rotation the band is symmetric about the mean and equals the formula the tests compare with, which is also the width of HyperbolicErrors along the first two axes. The equality with the bare eigenvalues, which one test computes without asserting, is false except for one value of the F statistic.", "quantifier": "every covariance with positive first entry, rotation, mean, abscissae, number and level", "why_tests_cant": "holds for every fit, covariance and list; a test looks at one figure", "anchors": ["attitude/display/plot/cov_types/regressions.py:hyperbola", "attitude/geom/test_hyperbolic_errors.py:simple_hyperbola", "attitude/display/test_hyperbolic_errors.py:simple_hyperbola"]}
{"id": "C157", "title": "Percentiles and confidence intervals are ordered and nested", "statement": "A percentile of a sorted non-empty list interpolates linearly between neighbouring values, lies between two members, grows with the percentage, is the least at 0 and the greatest at 100, commutes with rescaling and shifting; outside 0..100 it raises ValueError. Confidence intervals contain the median, are nested in the percentage, come with the ends exchanged for a negative percentage and raise ValueError beyond 100.", "quantifier": "every sorted non-empty list, percentage and affine map", "why_tests_cant": "holds for every fit, covariance and list; a test looks at one figure", "anchors": ["attitude/display/plot/cov_types/misc.py:percentiles", "attitude/display/plot/cov_types/misc.py:ci"]}
{"id": "C158", "title": "Resampling draws full-size samples of the data", "statement": "bootstrap_resampled gives as many values as asked, each the statistic of a sample with as many rows as the data, all rows of the data, so a confidence interval of a bounded statistic, the mean in particular, stays within the bounds; no data raises ValueError. bootstrap_noise without symmetry alters the last coordinate only, and with no noise gives the statistic of the data each time.", "quantifier": "every sequence of drawn indices or noise, data, statistic and number of samples", "why_tests_cant": "holds for every fit, covariance and list; a test looks at one figure", "anchors": ["attitude/display/plot/cov_types/regressions.py:bootstrap_resampled", "attitude/display/plot/cov_types/regressions.py:bootstrap_noise"]}
{"id": "C159", "title": "The Bingham density is axial and peaks along the third column of the axes", "statement": "bingham_pdf at one pair of coordinates is the constant hyp1f1 times the exponential of minus the weighted sum of squares of the components along the columns of fit.axes; opposite directions have equal density; for ordered axes it lies between two explicit bounds, reached exactly along the third and first columns. Since the axes are stored as rows, the pole of the fit is a peak exactly when it is also the third column, and for a vertical plane the density in the plane can exceed that at the pole.", "quantifier": "every direction, orthonormal frame, positive ordered hyperbolic axes and constant", "why_tests_cant": "holds for every direction, frame, triple of axes and grid; a test evaluates a few points", "anchors": ["attitude/bingham.py:bingham_pdf"]}
{"id": "C160", "title": "The regular grid covers half the sphere, but the density cannot be evaluated on it", "statement": "regular_grid gives longitudes along the rows and latitudes along the columns, both from -pi/2 to pi/2; every direction or its opposite is within half a step of the grid. The density accepts an array of coordinates only if its first and last dimensions are 3, and returns twice as many dimensions, so every grid but the 3 x 3 one raises ValueError.", "quantifier": "every size of grid, unit direction and shape of coordinate array", "why_tests_cant": "holds for every direction, frame, triple of axes and grid; a test evaluates a few points", "anchors": ["attitude/bingham.py:regular_grid", "attitude/bingham.py:bingham_pdf"]}
{"id": "C161", "title": "The truncated confluent series is symmetric, increasing and bounded", "statement": "confluent_hypergeometric_function is symmetric in its arguments; for arguments that are not negative it grows with the number of terms, stays between 2 gamma(1/2) and 2 gamma(1/2) exp(k1+k2), so converges; with a zero argument it is the single sum. bingham_pdf calls it with second argument 1 and first at least 1, or gets NaN if the last two axes are equal.", "quantifier": "every pair of arguments, number of terms and function with the recurrence of the gamma function", "why_tests_cant": "holds for every direction, frame, triple of axes and grid; a test evaluates a few points", "anchors": ["attitude/bingham.py:confluent_hypergeometric_function", "attitude/bingham.py:bingham_pdf"]}
{"id": "C162", "title": "Vertices of a regression fit's error ellipse are drawn away from the poles they stand for", "statement": "trend_plunge draws the centre of the ellipse of a LinearOrientation (all vertices at level 0) at the pole of the fitted plane. A vertex (x, y) of the rotated slope plane is drawn at the pole of the plane with that gradient exactly when y = 0 and x <= 0; for a positive definite covariance and non-zero level some vertex is always misplaced.", "quantifier": "every data set, vertex, level and singular value decomposition", "why_tests_cant": "holds for every data set, level and decomposition; a test draws a few figures and looks at them", "anchors": ["attitude/orientation/base.py:BaseOrientation.error_ellipse", "attitude/display/plot/__init__.py:trend_plunge"]}
{"id": "C163", "title": "The error ellipse mixes rotated coefficients with the unrotated covariance", "statement": "The gradients of the ellipse's vertices, turned back to map coordinates, lie on the contour of the covariance about the fitted gradient exactly when the plane strikes due north or south or the covariance is isotropic; a fit to four points refutes it in general.", "quantifier": "every data set with positive definite covariance, every non-zero level and decomposition", "why_tests_cant": "holds for every data set, level and decomposition; a test draws a few figures and looks at them", "anchors": ["attitude/orientation/base.py:BaseOrientation._ellipse"]}
{"id": "C164", "title": "The strike-dip figure is not centred on the strike and dip", "statement": "error_ellipse(fit) draws three ellipses scaled 1, 2 and 3 about one centre with opacities 0.5, 0.4 and 0.3, the offsets lying on the covariance contour. The centre is at strike 0 and dip 90 plus the gradient in degrees, never the dip of the fit; with spherical=True trend and plunge change places. A PCA fit raises ValueError.", "quantifier": "every regression fit, decomposition and PCA fit with positive variances", "why_tests_cant": "holds for every data set, level and decomposition; a test draws a few figures and looks at them", "anchors": ["attitude/display/plot/__init__.py:error_ellipse", "attitude/display/plot/__init__.py:strike_dip"]}
{"id": "C165", "title": "Opacities and exceptions of the plot functions", "statement": "Each patch gets its own number exactly when there are as many opacities as levels, otherwise the whole list. With its default opacity normal raises TypeError always, and trend_plunge gives numbers exactly for at most one level. trend_plunge, normal, strike_dip and plane_confidence raise ValueError for every PCA fit with positive variances, a non-zero first level and any list of opacities. With at least one level plane_confidence fails for every fit of either kind. With at least one level and a list of opacities trend_plunge, normal and strike_dip leave a PCA fit with its third axis upwards, all axes reversed if it pointed down.", "quantifier": "every orientation, list of levels and list of opacities", "why_tests_cant": "holds for every data set, level and decomposition; a test draws a few figures and looks at them", "anchors": ["attitude/display/plot/__init__.py:trend_plunge", "attitude/display/plot/__init__.py:normal", "attitude/display/plot/__init__.py:strike_dip", "attitude/display/plot/__init__.py:plane_confidence"]}
{"id": "C166", "title": "Monte Carlo poles are turned by a quarter about the vertical", "statement": "strike_dip_montecarlo draws every perturbed normal vector turned 90 degrees clockwise about the vertical, on the upper side; it is the vector's own pole exactly when it is vertical. Without noise the cosine of the angle between the point drawn and the fitted normal is the square of the cosine of the dip. The perturbed vectors have along each axis of the fit the draw times the noise and the level, added to the extent along the normal.", "quantifier": "every non-zero vector, fit with positive third singular value and number of draws", "why_tests_cant": "holds for every data set, level and decomposition; a test draws a few figures and looks at them", "anchors": ["attitude/display/plot/__init__.py:strike_dip_montecarlo"]}
{"id": "C167", "title": "The stereonet places every direction by Lambert's projection seen from outside", "statement": "For any rotation, scale and translation the projection draws a direction towards its bearing from the centre, at a distance of the scale times the chord, so areas of caps are preserved; the view is a right-handed orthonormal frame; no two directions share a place; only the antipode of the centre has none. The longitude and latitude that cart2sph gives a vector (x east, y north, z up) are drawn at the place of its direction.", "quantifier": "every rotation, scale, translation, direction and non-zero vector", "why_tests_cant": "holds for every view, size and sequence of calls; a test looks at a few pictures", "anchors": ["frontend/packages/attitude/src/stereonet/index.ts:proj", "frontend/packages/attitude/src/math.ts:cart2sph"]}
{"id": "C168", "title": "A mounted net depends on the last settings only, except its clipping", "statement": "After any chain of calls without rectangular(), mounting sets translation, scale and rotation from the last size, margin, clip angle and rotation alone; scale() is lost and its getter returns the size. rectangular() fixes a clip of 90 and centres the net in the frame. A clip angle below 89 is applied unless clipping is off; going back to 90 leaves the former clip; without an angle of 0 the projection is always clipped. A clip angle of 0 removes the clipping. The getters of size and scale both return the last size given, whatever is called in between.", "quantifier": "every sequence of calls", "why_tests_cant": "holds for every view, size and sequence of calls; a test looks at a few pictures", "anchors": ["frontend/packages/attitude/src/stereonet/index.ts:__setScale", "frontend/packages/attitude/src/stereonet/index.ts:f.rectangular", "frontend/packages/attitude/src/stereonet/index.ts:f.clipAngle"]}
{"id": "C169", "title": "The outline is larger than the radius asked for", "statement": "The clip circle of a net with clip angle a below 89 is drawn with radius (size/2 - margin)/cos(a/2), always more than size/2 - margin; at 90 the radius is sqrt 2 (2 size/5 - margin). It stays in the element exactly when that radius is at most size/2; with the default size and a clip angle of 80 it does not, and the label E falls inside the outline.", "quantifier": "every size, margin and clip angle and every point of the circle", "why_tests_cant": "holds for every view, size and sequence of calls; a test looks at a few pictures", "anchors": ["frontend/packages/attitude/src/stereonet/index.ts:__setScale"]}
{"id": "C170", "title": "Compass and dip labels agree with the vertical net, and not with center('vertical')", "statement": "After clipAngle() the direction leaning by d from the vertical towards azimuth az is drawn at that bearing at distance 2 k sin(d/2); the four compass labels stand at bearings 0, 90, 180 and 270; the label of dip d stands at the pole of a plane with that dip, azimuth 320. center('vertical') looks from below and draws north under the label S. The labels E and W of the horizontal net are level with the drawn east and west and coincide with them for one proportion of size and margin only.", "quantifier": "every direction, dip, size and margin", "why_tests_cant": "holds for every view, size and sequence of calls; a test looks at a few pictures", "anchors": ["frontend/packages/attitude/src/stereonet/vertical.ts", "frontend/packages/attitude/src/stereonet/horizontal.ts", "frontend/packages/attitude/src/stereonet/index.ts:f.center"]}
{"id": "C171", "title": "Visibility of the labels", "statement": "Of two opposite labels the nearer is shown unless it is at the centre (for Up and Down, within 45 degrees of it), and the farther only if the nearer is within a hundredth of a radian of the limb; whatever the view some compass label is shown.", "quantifier": "every view", "why_tests_cant": "holds for every view, size and sequence of calls; a test looks at a few pictures", "anchors": ["frontend/packages/attitude/src/stereonet/labels.ts:updateLabels"]}
{"id": "C172", "title": "Labels follow rotations but not the centre", "statement": "Labels exist once the net is mounted and labels were asked for, in either order; after a rotation they are where the net draws their points until the size, scale, clip angle or centre change. After center() they are right only if the rotation did not change: the Vertical button of the notebook leaves Up above the centre. A label is centred on its point within 20 pixels of the middle of the net and written on the outer side otherwise.", "quantifier": "every sequence of calls", "why_tests_cant": "holds for every view, size and sequence of calls; a test looks at a few pictures", "anchors": ["frontend/packages/attitude/src/stereonet/index.ts:f.call", "frontend/packages/attitude/src/stereonet/index.ts:f.rotate", "frontend/packages/attitude/src/stereonet/index.ts:f.center", "frontend/packages/attitude/src/stereonet/labels.ts:globalLabels", "frontend/packages/notebook-ui/src/components/stereonet.ts:setVertical"]}
{"id": "C173", "title": "The stereonet component shows its props, unless hovered was null", "statement": "After an update planes, poles and hovered items on screen are those the props ask for, if the hovered items were not null before or neither data nor switches changed; so always, when they start as an empty array and are never null. Hovering from null together with new data shows nothing, and items hovered at mounting are not drawn. The first centre is never applied, later ones are. The switches toggle.", "quantifier": "every sequence of props and clicks", "why_tests_cant": "holds for every view, size and sequence of calls; a test looks at a few pictures", "anchors": ["frontend/packages/notebook-ui/src/components/stereonet.ts:componentDidUpdate", "frontend/packages/notebook-ui/src/components/stereonet.ts:updateHovered", "frontend/packages/notebook-ui/src/components/stereonet.ts:InteractiveStereonetComponent"]}
{"id": "C174", "title": "Settings of opacityByCertainty", "statement": "The opacity depends on the last domain given and not on max(); reading max, domain or angularError back raises TypeError.", "quantifier": "every sequence of calls, error and exponent", "why_tests_cant": "holds for every view, size and sequence of calls; a test looks at a few pictures", "anchors": ["frontend/packages/attitude/src/stereonet/index.ts:opacityByCertainty", "frontend/packages/attitude/src/stereonet/index.ts:getterSetter"]}
{"id": "C175", "title": "The data panel tells negligible errors from others, but not missing from zero", "statement": "'No errors recorded' is shown exactly when both errors are null or below 0.01; otherwise numbers are shown as formatted, and an undefined error looks like zero.", "quantifier": "every pair of values and every format", "why_tests_cant": "holds for every view, size and sequence of calls; a test looks at a few pictures", "anchors": ["frontend/packages/notebook-ui/src/components/data-panel.ts:DataPanelComponent"]}
{"id": "C176", "title": "Python and the browser draw one error cone", "statement": "For any orthonormal axes with a third axis that is not horizontal, positive diagonal covariance d and level l, every point of Python's upper and lower girdles, and every point of the browser's for lengths d0^2, d1^2, (2 d2 l)^2, is a unit direction on the same cone and each sheet on the same side of the plane; nominal girdles of both are in the plane. For a horizontal third axis the same sheet is on opposite sides.", "quantifier": "all axes, covariances, levels, layouts and numbers of points", "why_tests_cant": "holds for every plane, error and number of points; the cross-language test compares a few fits up to a tolerance, with a fixed number of points", "anchors": ["attitude/stereonet.py:plane_errors", "frontend/packages/attitude/src/math.ts:planeErrors"]}
{"id": "C177", "title": "The cross-language test does not give the two the same input", "statement": "Given the same three numbers, as test-runner does, the two cones coincide exactly when d0 = d1 = 4 d2; and whatever the lengths, the first points of the two girdles lie on opposite sides of the second axis, so that the lists are never equal.", "quantifier": "all axes, lengths, sheets, levels and numbers of points", "why_tests_cant": "holds for every plane, error and number of points; the cross-language test compares a few fits up to a tolerance, with a fixed number of points", "anchors": ["frontend/packages/attitude/test/test-runner.py", "attitude/stereonet.py:plane_errors", "frontend/packages/attitude/src/math.ts:planeErrors"]}
{"id": "C178", "title": "Python and the browser draw one error cone of poles, but in mirrored layouts", "statement": "Every point of Python's normal_errors and of the browser's normalErrors for lengths d0^2, d1^2, (2 d2)^2 is a unit direction on the same polar cone, Python's around the upward normal, the browser's around the third axis. In the browser's own layout both read points alike; in the traditional layout Python's latitude is negated, and Python's points are in general off the browser's cone.", "quantifier": "all axes, covariances, levels and numbers of points", "why_tests_cant": "holds for every plane, error and number of points; the cross-language test compares a few fits up to a tolerance, with a fixed number of points", "anchors": ["attitude/stereonet.py:normal_errors", "frontend/packages/attitude/src/math.ts:normalErrors"]}
{"id": "C179", "title": "Principal axes of a fit can be taken apart in the browser", "statement": "deconvolveAxes applied to the principal_axes of any weighted or unweighted fit with positive singular values gives back its singular values and axes exactly; if some singular value is zero the result is NaN.", "quantifier": "all arrays and weights", "why_tests_cant": "holds for every plane, error and number of points; the cross-language test compares a few fits up to a tolerance, with a fixed number of points", "anchors": ["attitude/orientation/pca.py:PCAOrientation.principal_axes", "frontend/packages/attitude/src/math.ts:deconvolveAxes"]}
{"id": "C180", "title": "The browser draws the angular errors a fit reports, but not those of a reconstructed plane", "statement": "For any fit whose angular errors are strictly between 0 and 90 degrees, the mapping it sends to the browser is drawn with upper and lower curves that are everywhere between the lesser and the greater error from the plane, exactly the first error over the first axis and exactly the second over the second. A reconstructed plane with errors a, b is drawn with atan(sqrt(tan(b/2))) and atan(sqrt(tan(a/2))) instead of half the errors; equal only for 90 degrees. Properties without lengths and without a strike raise TypeError.", "quantifier": "all fits, reconstructed planes, extra keys, layouts and numbers of points", "why_tests_cant": "holds for every plane, error and number of points; the cross-language test compares a few fits up to a tolerance, with a fixed number of points", "anchors": ["attitude/orientation/base.py:BaseOrientation.to_mapping", "attitude/orientation/reconstructed.py:ReconstructedPlane", "frontend/packages/attitude/src/functions.ts:createGroupedPlane"]}
{"id": "C181", "title": "The stereonet read backwards", "statement": "For any positive scale, rotation and translation, reading the place of a drawn direction gives back that direction with a latitude in [-90, 90]; every place inside the circle of twice the scale is read as a direction that is drawn there, and every other place as the antipode of the centre, which is drawn nowhere. After any calls without rectangular() that include mounting, centerPosition() is the direction at the centre of the view; in a rectangular frame it is so exactly if the frame has the default width and height.", "quantifier": "every projection, place and sequence of calls", "why_tests_cant": "holds for every view, size and sequence of calls; a test looks at a few pictures", "anchors": ["frontend/packages/attitude/src/stereonet/index.ts:f.centerPosition", "frontend/packages/attitude/lib/d3v4+jetpack.js:azimuthalInvert"]}
{"id": "C182", "title": "Places in the section view", "statement": "For every view angle and scales, the error polygon and the trace of a plane are translated to the place of its centre in the orthographic projection along the view (right of the screen: (cos a, sin a, 0); up: z), a missing offset being the origin; the depth by which planes are sorted is the distance towards the viewer, in a right-handed frame. With other axes the offset is first expressed in them.", "quantifier": "every view angle, scale and offset", "why_tests_cant": "holds for every view angle, scale and set of points; a test renders a few pictures and does not read coordinates back", "anchors": ["frontend/packages/attitude/src/hyperbola.ts:hyperbolicErrors", "frontend/packages/attitude/src/hyperbola.ts:createTransform"]}
{"id": "C183", "title": "Points drawn in the section view", "statement": "digitizedLine puts every point of every trace where the projection does. apparentDip, used instead, puts the points of a level plane whose first axis is at the angle t where a view at the angle a + t would, with left and right and up and down exchanged when the vertical scale points upwards (as in the side view): points of the plane are in their place exactly when cos t = -1, and there are points that are not (refuted).", "quantifier": "every view angle, first axis, scales and list of points", "why_tests_cant": "holds for every view angle, scale and set of points; a test renders a few pictures and does not read coordinates back", "anchors": ["frontend/packages/attitude/src/hyperbola.ts:digitizedLine", "frontend/packages/attitude/src/hyperbola.ts:apparentDip"]}
{"id": "C184", "title": "The line of a plane in the section view", "statement": "For every plane that is not vertical, view and non-zero scales, apparentDip's line has the width set, the place of the plane's centre in its middle, and goes through the place of every point of the plane in the vertical section through its centre. The points of its error polygon are drawn along and on either side of that line, at the distances they have from its axis.", "quantifier": "every plane, view, scale and width", "why_tests_cant": "holds for every view angle, scale and set of points; a test renders a few pictures and does not read coordinates back", "anchors": ["frontend/packages/attitude/src/hyperbola.ts:apparentDip", "frontend/packages/attitude/src/hyperbola.ts:createTransform"]}
{"id": "C185", "title": "Settings of the error polygons", "statement": "After any calls, width, nominal and scaleErrorAngles are those given last (400, false, true at first). The outline's vertical coordinate has the vertical scale exactly if scaleErrorAngles was on at this drawing and every one before, and the horizontal one otherwise; so switching it on again has no effect (refuted). Half the side of the mask is the horizontal extent of an asymptote of half the width, unless the setting was switched back on.", "quantifier": "every sequence of settings and drawings", "why_tests_cant": "holds for every history of calls or views; a test checks one", "anchors": ["frontend/packages/attitude/src/hyperbola.ts:hyperbolicErrors"]}
{"id": "C186", "title": "Elements of the planes in the section view", "statement": "After any sequence of views each plane is drawn by one element, elements are in the order of depth in the last view (nearer planes over farther ones) and have the class in_group if and only if the plane has a group. After the first view, and always if planes are in the order of the data in every view, the mask and the class in-group are the plane's too; otherwise they can be those of another plane (refuted).", "quantifier": "every number of planes and sequence of views", "why_tests_cant": "holds for every history of calls or views; a test checks one", "anchors": ["frontend/packages/notebook-ui/src/components/side-view.ts:updateAzimuth", "frontend/packages/attitude/src/hyperbola.ts:hyperbolicErrors"]}
{"id": "C187", "title": "Azimuth of the section view", "statement": "The number in 'Distance along' is the azimuth in degrees plus 90, in [-180, 180] up to full turns, while the compass direction to the right of the screen is 180 minus the azimuth: they agree exactly if the sine and cosine of the azimuth do. With the azimuth set by turning the stereonet to a centre at longitude lon, the direction to the right of the section is 90 + 2 lon degrees clockwise from that of the net, so that at the initial centre the section is seen across the net's line of sight (refuted that they agree).", "quantifier": "every azimuth and centre", "why_tests_cant": "holds for every view angle, scale and set of points; a test renders a few pictures and does not read coordinates back", "anchors": ["frontend/packages/notebook-ui/src/components/side-view.ts:updateAzimuth", "frontend/packages/notebook-ui/src/index.ts:onStereonetRotate"]}
{"id": "C188", "title": "Data of a plane in the section view", "statement": "PlaneData uses the mean given to it, else that of the data, else the centre; its centred points, unless the data has them, are the points minus that mean; drawn by digitizedLine they are around the common centre whichever mean was used. Without a mean it fails with a TypeError whenever there are points, because the parameter hides the function that computes one (refuted that it computes one).", "quantifier": "every measurement and mean", "why_tests_cant": "the failing case needs data without mean and centre, which no test has", "anchors": ["frontend/packages/attitude/src/hyperbola.ts:PlaneData"]}
{"id": "C189", "title": "Hovering in the section view", "statement": "After any sequence of hovered planes the traces with their own colour are those in the last list given; null changes nothing, so a plane stays lit when the pointer leaves it (refuted that it is not).", "quantifier": "every list of planes and sequence of properties", "why_tests_cant": "holds for every history of calls or views; a test checks one", "anchors": ["frontend/packages/notebook-ui/src/components/side-view.ts:updateHovered"]}
{"id": "C190", "title": "The error cone belongs to the data", "statement": "The cone of directions given by the principal axes and statistical_axes of a fit is a function of the data: rotating (or reflecting) the data rotates it, the order of the points does not change it, nor does scaling, whatever axes LAPACK chooses in each fit, provided the third singular value is smaller than the second. With equal second and third values it depends on LAPACK's choice (refuted).", "quantifier": "every data set, rotation, permutation, scale and two LAPACK implementations", "why_tests_cant": "holds for all data sets and all results LAPACK may return; a test runs one LAPACK on a few data sets", "anchors": ["attitude/orientation/pca.py:PCAOrientation", "attitude/error/axes.py:statistical_axes"]}
{"id": "C191", "title": "Strike under turning and mirroring the outcrop", "statement": "Turning the data counter-clockwise about the vertical by t degrees leaves the dip and changes the strike by -t modulo 360; reflecting east and west leaves the dip and changes strike s to 180 - s (modulo 180 for vertical planes).", "quantifier": "every data set with third singular value smaller than the second, every angle", "why_tests_cant": "holds for all data sets and all results LAPACK may return; a test runs one LAPACK on a few data sets", "anchors": ["attitude/orientation/pca.py:PCAOrientation", "attitude/orientation/pca.py:strike_dip"]}
{"id": "C192", "title": "Regression axes in closed form", "statement": "regression_axes raises LinAlgError exactly if all points are on one line. Otherwise the regression plane in the principal frame is z = 0, the only minimum of the squared vertical distances, and the axes are s0 sqrt(n)/(q s2), s1 sqrt(n)/(q s2), (q s2/n)^2 for singular values s, n points and quantile q; for points in one plane they are not finite.", "quantifier": "every data set, inverse, and quantile function", "why_tests_cant": "holds for all data sets and all results LAPACK may return; a test runs one LAPACK on a few data sets", "anchors": ["attitude/error/axes.py:regression_axes"]}
{"id": "C193", "title": "Regression axes depend on the unit", "statement": "Scaling data by k leaves the first two regression axes and multiplies the third by k^2, so the angular errors computed from them differ whenever k <> 1 (refuted that they depend on shape alone).", "quantifier": "every data set that is not coplanar and every scale", "why_tests_cant": "holds for all data sets and all results LAPACK may return; a test runs one LAPACK on a few data sets", "anchors": ["attitude/error/axes.py:regression_axes", "attitude/error/axes.py:angular_errors"]}
{"id": "C194", "title": "Jolliffe axes are on the wrong side", "statement": "The 'lower bounds' of jolliffe_axes for the first two eigenvalues lie above the estimates and the third axis below e2/n, at every confidence level between 0 and 1; a higher level gives smaller first two axes and a larger third.", "quantifier": "every data set, level and increasing quantile function with median 0", "why_tests_cant": "the function is not called by any test, and single values do not show the direction of a bound", "anchors": ["attitude/error/axes.py:jolliffe_axes"]}
{"id": "C195", "title": "Keywords of hyperbolic_axes", "statement": "hyperbolic_axes uses type, confidence_level, dof, chisq and variance_on_all_axes as statistical_axes does, reading the last two as Python conditions (False, 0 and the empty string switch them off). With any other keyword all of them are ignored without notice and the default axes (noise, 95 %) are returned; reconstructed planes ignore every keyword. So a level asked for can be ignored (refuted).", "quantifier": "every fit and every set of keywords", "why_tests_cant": "holds for every keyword, of which a test can name a few", "anchors": ["attitude/error/axes.py:hyperbolic_axes", "attitude/error/axes.py:statistical_axes", "attitude/error/axes.py:noise_axes", "attitude/error/axes.py:sampling_axes"]}
{"id": "C196", "title": "Figures in HTML", "statement": "The src attribute encode writes has no character special in HTML; decoding its percent escapes and then base64 (RFC 4648) gives exactly the bytes of the PNG and no others, so different pictures give different text.", "quantifier": "every sequence of bytes", "why_tests_cant": "all lengths and bytes; a test encodes one figure", "anchors": ["attitude/display/util.py:encode"]}
{"id": "C197", "title": "Symbolic conics agree with the numeric ones", "statement": "center, dual and polar_plane of symbolic_math agree with conics.py on every matrix and fail on the same ones; without a point the polar plane is that of the origin. origin_distance is, up to sign, the distance of the plane from the origin, positive exactly if the plane's value there is; a plane without normal has none. For the polar plane of the origin and an ellipsoid with semiaxes a and centre v it is (sum (v/a)^2 - 1)/sqrt(sum (v/a^2)^2), positive exactly if the origin is outside.", "quantifier": "every dimension, matrix, plane and ellipsoid not centred at the origin", "why_tests_cant": "the module is itself meant for validation; its agreement for all matrices cannot be sampled", "anchors": ["attitude/geom/symbolic_math.py:center", "attitude/geom/symbolic_math.py:dual", "attitude/geom/symbolic_math.py:polar_plane", "attitude/geom/symbolic_math.py:origin_distance"]}
{"id": "C198", "title": "Singular values under errors in the coordinates", "statement": "If every point moves by at most e, the mean moves by at most e and each singular value by at most e sqrt(n).", "quantifier": "every two data sets of the same length, two LAPACK implementations, every e", "why_tests_cant": "bounds for every perturbation of every data set; a test perturbs a few", "anchors": ["attitude/orientation/pca.py:PCAOrientation", "attitude/coordinates/__init__.py:centered"]}
{"id": "C199", "title": "The plane under errors in the coordinates", "statement": "If every point moves by at most e and r = e sqrt(n) is less than the gap between second and third singular value, the plane turns by an angle with sine at most sqrt(2) r/(gap - r), the sine of the change of dip is bounded by this, and so is that of the change of strike times the sines of both dips. Without a gap arbitrarily small errors can turn a level plane into a vertical one (refuted).", "quantifier": "every two data sets of the same length, two LAPACK implementations, every e", "why_tests_cant": "bounds for every perturbation of every data set; a test perturbs a few", "anchors": ["attitude/orientation/pca.py:PCAOrientation", "attitude/orientation/pca.py:strike_dip"]}
{"id": "C200", "title": "Rounding errors of a fit", "statement": "With arithmetic of relative error u (any order of summation), n points and coordinates up to X, each centred coordinate is off by at most ((1+u)^(n+1) - 1 + u) X, which is at most 2 (n+2) u X while 2 (n+1) u <= 1; with a backward stable SVD the computed singular values, plane, strike and dip are off by at most the bounds of the two preceding claims for the resulting error of the array.", "quantifier": "every rounding with relative error u, order of summation, data set and backward stable SVD", "why_tests_cant": "quantifies over roundings; a test compares with values computed with the same rounding", "anchors": ["attitude/coordinates/__init__.py:centered", "attitude/orientation/pca.py:PCAOrientation", "attitude/orientation/pca.py:strike_dip"]}
{"id": "C201", "title": "Fits of points in a plane", "statement": "For an array with two columns a PCAOrientation is the line of least squared distances: it passes through the mean, its unit normal has a non-negative second component, no other line is closer, the residuals are the perpendiculars to it and their squares sum to the square of the last singular value. One angular error is reported, between 0 and 90 degrees, zero exactly for collinear points. strike_dip and to_mapping raise an IndexError, rake a TypeError. The explained variance is 1 for all points that do not coincide. Two points are refused although they determine a line (refuted).", "quantifier": "every array with two columns, every decomposition of its centred points, every quantile", "why_tests_cant": "least over all lines; a test can only try some", "anchors": ["attitude/orientation/pca.py:PCAOrientation", "attitude/orientation/pca.py:residuals", "attitude/orientation/pca.py:explained_variance", "attitude/orientation/pca.py:strike_dip", "attitude/orientation/pca.py:rake", "attitude/error/axes.py:angular_errors"]}
{"id": "C202", "title": "Bhattacharyya distance of two fits", "statement": "The function finishes exactly when all coefficients and variances of both fits are positive, otherwise it raises an AssertionError; it then returns the Bhattacharyya distance less a quarter of the logarithm of the product of both determinants. It is symmetric and a fit is at -1/2 ln det from itself, which can be negative (the test's claim, refuted). Of the two signs of a third axis at least one is refused.", "quantifier": "every two fits and every inverse routine", "why_tests_cant": "an identity of logarithms for all covariances; the only test is marked as failing", "anchors": ["attitude/__dustbin/statistical_distances.py:bhattacharyya_distance"]}
{"id": "C203", "title": "Colours and errors of the notebook's test planes", "statement": "Exactly the planes between 1600 and 1680 that are not removed are kept; each gets one of seven colours, the n-th for the n-th sixth of the heights from the top, higher planes never later, the first for the highest planes only; with no plane left a ValueError is raised. The errors of field measurements, converted to radians for a constructor that takes degrees, come out below two thousandths of a degree instead of a tenth (refuted).", "quantifier": "every collection of planes", "why_tests_cant": "all collections and heights; the script has no tests", "anchors": ["frontend/packages/notebook-ui/test/process-onis-planes.py", "attitude/orientation/reconstructed.py:ReconstructedPlane"]}
{"id": "C204", "title": "Angular errors depend on the aspect ratios only", "statement": "With n points, quantile z and k = 2z / sqrt(n - 2), the tangent of each angular error of a fit is rho sqrt((1 + k) / |1 - k rho|), rho being the third singular value over that of the axis. While k rho is at most one half it lies between rho sqrt(1 + k) and rho sqrt(2 (1 + k)); where k rho is 1 the error is exactly 90 degrees. Fits of as many points whose singular values are proportional have the same errors, whatever the units.", "quantifier": "every array with at least three points of rank two or more, every decomposition, every quantile not below zero", "why_tests_cant": "a formula for all ratios; tests compare single fits with tolerances", "anchors": ["attitude/error/axes.py:noise_axes", "attitude/error/axes.py:angular_errors", "attitude/orientation/pca.py:PCAOrientation", "attitude/orientation/pca.py:angular_errors"]}
{"id": "C205", "title": "Angular errors are stable", "statement": "If every point is moved by at most e, with r = e sqrt(n) below the second singular value and k (s3 + r) / (s2 - r) at most one half, the tangents of both angular errors change by at most 3 / sqrt 2 sqrt(1 + k) 2 r / (s - r), s being the singular value of the axis; this covers any two decompositions of the arrays.", "quantifier": "every two arrays of as many points at most e apart, every decomposition, every quantile", "why_tests_cant": "a bound over all perturbations; a test can only draw some", "anchors": ["attitude/error/axes.py:noise_axes", "attitude/error/axes.py:angular_errors", "attitude/orientation/pca.py:PCAOrientation", "attitude/orientation/pca.py:angular_errors"]}
{"id": "C206", "title": "Regression on average", "statement": "If the heights of a linear regression are a true plane plus errors with mean zero, the average of the fitted slopes is the true slopes. If the errors also have a common variance and are uncorrelated, the average product of slope deviations is that variance times the inverse normal matrix, the covariance the regression reports is on average n - 3 times this (zero for three points), and no other linear rule that is right on average has a smaller variance in any direction.", "quantifier": "every design of full rank, every finite distribution of error vectors, every linear unbiased rule", "why_tests_cant": "statements about averages over all error distributions and all competing estimators", "anchors": ["attitude/orientation/linear/regression.py:Regression", "attitude/orientation/linear/regression.py:Regression.covariance_matrix", "attitude/orientation/linear/regression.py:Regression.coefficients"]}
{"id": "C207", "title": "What is extracted for a shape", "statement": "Extracting a polygon's pixels gives exactly the valid pixels of the mask when its area is not zero; a ring whose vertices are collinear is taken for a line and raises AttributeError, a triangle exactly if its corners are collinear, and a ring of two triangles that cross out is refused as well. A line gives one row per point sampled when all pixels are valid, and with gaps exactly the points whose surrounding pixels all hold numbers.", "quantifier": "every ring, raster, mask and sampling of a line", "why_tests_cant": "degenerate rings and gap patterns are unbounded in number", "anchors": ["attitude/helpers/dem.py:extract_shape", "attitude/helpers/dem.py:extract_line", "attitude/helpers/dem.py:clean_coordinates"]}
{"id": "C208", "title": "Error bands kept and redrawn", "statement": "After any sequence of calls on a HyperbolicErrors object, errors caught, the polygon of each plot shows the data last stored before the next plot, or a single vertex at the origin if there were none. plot_nominal raises TypeError exactly while there are no data, update_data raises AttributeError exactly before the first plot and yet stores its data. The edge colour is the first given of edgecolor, ec, facecolor, fc, color, else black. The outline has twice as many vertices as positions, encloses the trapezoid sum of the width 2y of the band and runs counter-clockwise for increasing positions.", "quantifier": "every sequence of calls, every band, every choice of keywords", "why_tests_cant": "call histories are unbounded; the area identity holds for all axes and positions", "anchors": ["attitude/display/hyperbola.py:HyperbolicErrors", "attitude/display/hyperbola.py:hyperbolic_errors"]}
{"id": "C209", "title": "Shadow of an offset ellipse in the plane", "statement": "An ellipse with half axes a across and b along, its centre at distance l > b, has its centre at (0, l), its polar line of the origin at distance l - b*b/l and half its shadow has tangent a/sqrt(l*l - b*b), and no other value touches. This equals the angle of the hyperbola, arctan2(b, a), exactly if l = sqrt(a^4 + b^4)/b; the shift of the test marked as failing, (a^4 + b^4)/b, is this one only if a^4 + b^4 = 1, so that its assertion is false for 10 and 5. angle_subtended in the plane returns atan(1/(a w)), w = sqrt(l*l - b*b), instead of atan(a/w), which is right exactly for a = 1.", "quantifier": "every ellipse with positive half axes and every shift that leaves the origin outside; every inverse and svd within contract", "why_tests_cant": "the existing test uses one circle where the error is invisible, and one ellipse marked as expected failure without saying why", "anchors": ["attitude/geom/conics.py:angle_subtended", "attitude/geom/conics.py:Conic.polar_plane", "attitude/geom/conics.py:Conic.slice", "attitude/geom/test_offset_ellipse.py:test_angular_shadow", "attitude/geom/test_offset_ellipse.py:test_ellipse_offset"]}
{"id": "C210", "title": "Repeated measurements and the least angular error", "statement": "Repeating every point m times, in any order, scales the singular values by the root of m and changes neither the centre nor the plane. No angular error is ever less than the arctangent of the aspect ratio s3/s1 (s3/s2), whatever the number of points and the quantile. As m grows the tangents of both errors come down to these ratios, at most 2k above them relatively with k = 2Z/sqrt(mn - 2), and so do not tend to zero unless the points lie in a plane.", "quantifier": "every array, number of repetitions, order of rows, quantile function bounded by Z and LAPACK routine", "why_tests_cant": "a limit over unboundedly large data sets", "anchors": ["attitude/orientation/pca.py:PCAOrientation.angular_errors", "attitude/orientation/pca.py:PCAOrientation.__run_svd", "attitude/error/axes.py:angular_errors", "attitude/error/axes.py:noise_axes"]}
{"id": "C211", "title": "The three point problem and the direction tests", "statement": "If all points lie in the plane of three of them that are not in a line, the fit is that plane and strike_dip reports its strike from 0 up to 360 and its dip, the only such pair unless the plane is horizontal or vertical. Hence a direction test with the right answer for an array passes exactly if its strike is given from 0 up to 360: as written all of test_directions raise AttributeError, since lists have no mean, and with arrays the first and the last still fail. The flat edge case always fails, with strike 90 or 270, and the vertical one passes or fails with the sign of the third axis. Any direction test passes exactly if the two numbers given are the strike and dip of the fit.", "quantifier": "every set of points in a plane, every LAPACK routine", "why_tests_cant": "the tests of the package are never collected and their expectations are partly wrong", "anchors": ["attitude/orientation/tests.py:check_orientation", "attitude/orientation/tests.py:test_directions", "attitude/orientation/pca.py:PCAOrientation.strike_dip"]}
{"id": "C212", "title": "What a fit reports on average", "statement": "For points measured with errors of mean zero, variance v in every direction and no correlation, the covariance described by the axes and eigenvalues of the fit is on average that of the true points plus v. The greatest eigenvalue is on average at least the greatest variance of the true points plus v, the least at most the least plus v: for points of a plane the reported noise is on average at most v. With errors along the normal only it is on average at most (n - 3)/(n - 1) v.", "quantifier": "every configuration of points, every finite distribution of errors with these moments, every LAPACK routine", "why_tests_cant": "statements about averages over all error distributions", "anchors": ["attitude/orientation/pca.py:PCAOrientation.eigenvalues", "attitude/orientation/pca.py:PCAOrientation.__run_svd", "attitude/orientation/pca.py:PCAOrientation.axes"]}
{"id": "C213", "title": "The lines of the stereonet's graticule and their labels", "statement": "For every spacing, the net has a meridian at each multiple of 90 and at each multiple of the spacing off those, from -180 up to but without 180, and a parallel at each multiple of the other spacing between the poles; each line once, meridians at multiples of 90 running to the poles and others stopping a step before. The test on the first two points selects exactly the meridians (parallels), without reading a missing point, and every label carries the coordinate of the line that crosses the frame there, with none left out. Labels of dip are dips above the equator and exceed 90 below it. A parallel is a chain of 145 points every two and a half degrees and a meridian of at most three points.", "quantifier": "every pair of spacings (latitude up to 90), frame, drawing and intersection routine", "why_tests_cant": "every spacing and frame", "anchors": ["frontend/packages/plots/src/graticule-labels.ts:getIntersections", "frontend/packages/attitude/src/stereonet/index.ts:setGraticule", "frontend/packages/plots/src/graticule-labels.ts:DipLabels"]}
{"id": "C214", "title": "The scattered planes of the tests", "statement": "The random planes have every point on the plane, and make_plane raises exactly for columns of different lengths. Scattering changes every coordinate by a multiple of itself: the covariance described by a fit is on average that of the true points plus the squared scatter times the mean square of the coordinates along a direction. The reported noise is on average at most that along the normal, and raised far enough above the origin any set of points has its greatest average variance along the vertical. random_pca(False) raises NameError.", "quantifier": "every plane, number of points, scatter, distribution of the random numbers with mean 0 and variance 1, LAPACK routine", "why_tests_cant": "averages over all distributions and unboundedly large data", "anchors": ["attitude/test/__init__.py:make_plane", "attitude/test/__init__.py:randomize", "attitude/test/__init__.py:scattered_plane", "attitude/orientation/pca.py:random_pca"]}
{"id": "C215", "title": "The covariance matrix outside the class and the axis transform", "statement": "The function covariance_matrix gives the n by n matrix of products of centred points: rows summing to zero, trace the sum of squared singular values. It is unchanged if the data are turned and moved in any way and so holds nothing of the orientation. axis_transform gives back its argument for every least squares routine, and this takes the rotated data back to the data.", "quantifier": "every array, rotation, translation, LAPACK and least squares routine", "why_tests_cant": "no test calls these functions", "anchors": ["attitude/orientation/pca.py:covariance_matrix", "attitude/orientation/pca.py:axis_transform", "attitude/orientation/pca.py:PCAOrientation.rotated"]}
{"id": "C216", "title": "The angular error of a length", "statement": "angular_error(L) has the tangent (1 + k) s3^2 / ((n - 1) L), a squared length over a length: scaling data and L by c multiplies it by c, though the angular errors of the fit do not change. For the length of a hyperbolic axis it is the angular error of the fit exactly if the third hyperbolic axis is 0 or 1.", "quantifier": "every array, scale, length and quantile", "why_tests_cant": "the method is called by nothing", "anchors": ["attitude/orientation/pca.py:PCAOrientation.angular_error", "attitude/error/axes.py:axis_angular_error"]}
{"id": "C217", "title": "The dual of an ellipsoid is hyperbolic exactly for outside origins", "statement": "For a quadric with positive definite quadratic part and a point inside, the dual exists and is_hyperbolic, is_elliptical or is_parabolic holds of it as the origin lies outside, inside or on the ellipsoid; moved so that a viewpoint becomes the origin, as the viewpoint lies outside or not. The ellipsoids made by from_axes therefore do not become hyperbolas by taking the dual, as the comment says, until they are moved so far that the origin is outside.", "quantifier": "every dimension, ellipsoid, viewpoint and translation", "why_tests_cant": "test_conic_axes tries one ellipsoid and one translation", "anchors": ["attitude/geom/conics.py:Conic.dual", "attitude/geom/conics.py:Conic.is_hyperbolic", "attitude/geom/conics.py:Conic.from_axes", "attitude/geom/test_conics.py:test_conic_axes"]}
{"id": "C218", "title": "The axes reported for a sphere depend on where it is", "statement": "major_axes of a sphere of radius r with centre v has rows of length sqrt(r^2 + 2 sum v - |v|^2)/r^2, or fails with a negative root. Their ends lie on the sphere exactly if r^2 + 2 sum v - |v|^2 = r^6, for a unit sphere if |v|^2 = 2 sum v, as for the (2,0,0) of the test; at (1,0,0) the length is sqrt 2 and at (3,0,0) there is none.", "quantifier": "every dimension, radius, centre and singular value decomposition", "why_tests_cant": "the test's centre is one of the few for which the result is right", "anchors": ["attitude/geom/conics.py:Conic.major_axes", "attitude/geom/conics.py:Conic.translate", "attitude/geom/test_conics.py:test_conic"]}
{"id": "C219", "title": "Upright slices of the error hyperboloid", "statement": "The hyperboloid x^2/a^2 + y^2/b^2 - z^2/c^2 = 1 is hyperbolic with its centre at the origin, and an upright plane through the centre with normal (p,q,0) cuts it in the hyperbola u^2 k - w^2/c^2 = 1, k = (q^2/a^2 + p^2/b^2)/(p^2 + q^2); across the second axis the half axes are a and c.", "quantifier": "all half axes and all upright planes", "why_tests_cant": "test_conic_errors tries one hyperboloid and one plane", "anchors": ["attitude/geom/conics.py:Conic.slice", "attitude/geom/conics.py:Conic.center", "attitude/geom/test_errors.py:test_conic_errors"]}
{"id": "C220", "title": "The distance of a fit from the fit of its group", "statement": "distance_from_group gives for planes that are not parallel the acute angle between them, an error below a full turn and their ratio; for parallel planes, as for a fit and itself, it gives no number. The angle does not depend on the sign the decomposition gives to the first axis; the error does, unless the normal of the group is perpendicular to the first axis, and then it exceeds 90 degrees whatever the length of the second axis. A report of several arrays has one entry for each in order, measured from the plane of all points together; a report of one array has none; without an array it stops with IndexError and with an array of fewer than three points among several with ValueError.", "quantifier": "every pair of arrays, LAPACK routine and quantile", "why_tests_cant": "the module cannot be imported and no test calls the function", "anchors": ["attitude/__dustbin/__report/__init__.py:distance_from_group", "attitude/orientation/pca.py:PCAOrientation.angular_error", "attitude/geom/util.py:unit_vector", "attitude/__dustbin/__report/__init__.py:report"]}
{"id": "C221", "title": "What the page draws while only the selection is shown", "statement": "Starting from the page as it opens, after any clicks, hovers and controls: the selection, the groups switch, the zoom and the two layer switches are what the clicks ask for; the hovered layer always shows the hovered items; while all attitudes are shown each layer switched on draws all of them; switching a layer, zooming with a selection and clearing one redraw it rightly. Between those nothing is redrawn, so while only the selection is shown selecting or removing an item leaves the old selection drawn (refuting that the drawing always shows the selection); and clearing the selection while zoomed leaves an empty stereonet which no control but selecting an item again brings back.", "quantifier": "every list of attitudes and every sequence of clicks and controls", "why_tests_cant": "the notebook has no tests; the stale drawing appears only after particular sequences", "anchors": ["frontend/packages/notebook-ui/src/index.ts:getData", "frontend/packages/notebook-ui/src/index.ts:updateSelection", "frontend/packages/notebook-ui/src/index.ts:zoomToSelection", "frontend/packages/notebook-ui/src/components/stereonet.ts:componentDidUpdate", "frontend/packages/notebook-ui/src/components/list.ts:render"]}
{"id": "C222", "title": "The text copied for a selection", "statement": "The text offered for copying reads, as JSON, as the list of the uids selected exactly if no uid contains a quote, a backslash or a control character. Two selections without quotes have the same text only if they are equal; with quotes different selections can have the same text.", "quantifier": "every list of uids", "why_tests_cant": "uids in the examples are plain words", "anchors": ["frontend/packages/notebook-ui/src/components/list.ts:selectionText"]}
{"id": "C223", "title": "What the tests of the reconstructed plane can show", "statement": "For every set of points: test_rake_angle passes exactly if the plane is not horizontal. In test_reconstructed_plane the comparisons of the normal, of the angular errors and of strike, dip and rake always pass. The comparison of the axes fails if the third axis points up (unless the rake is within about 0.001 degrees of 90) or if the upturned axes are right handed, and passes if the third axis points down, the first not against the strike, and the axes are right handed. The comparison of the covariances fails for every fit whose largest singular value is at least twice its smallest, so the test fails for anything resembling a plane.", "quantifier": "every array of points, every decomposition routine and every F quantile", "why_tests_cant": "the tests draw one random plane each; which branch is taken depends on the signs the decomposition chooses", "anchors": ["attitude/orientation/test_reconstructed.py:test_rake_angle", "attitude/orientation/test_reconstructed.py:test_reconstructed_plane", "attitude/orientation/reconstructed.py:ReconstructedPlane", "attitude/orientation/pca.py:PCAOrientation.covariance_matrix"]}
{"id": "C224", "title": "The constructions of the error hyperbola agree on mirrored positions", "statement": "For all positive hyperbolic axes and all positions: the dual of from_axes(h) is diag(1/h, -1); its slice across the first axis has the half axes sqrt(h1), sqrt(h2); the curve computed from the slice and the closed formula are the same upper branch of y^2/h2 - x^2/h1 = 1. The upper edge of hyperbolic_errors is the same curve backwards, so the comparison in the test holds exactly if the positions are equal in size from both ends, as they are for linspace(-l, l, m); likewise in the direction of least variation. The axes of the slice seen in any horizontal direction agree with the direct computation.", "quantifier": "all positive axes, all lists of positions, all angles and every inversion routine", "why_tests_cant": "the tests use one fit, one symmetric range and one angle", "anchors": ["attitude/geom/test_hyperbolic_errors.py:test_hyperbolic_projection", "attitude/geom/test_hyperbolic_errors.py:test_minimum_variation", "attitude/display/test_hyperbolic_errors.py:test_dual_conic", "attitude/display/hyperbola.py:hyperbolic_errors", "attitude/geom/conics.py:Conic.slice"]}
{"id": "C225", "title": "A fit on a map does not depend on what was drawn before, but its cone is mirrored", "statement": "For any fit and any earlier calls of cartopy_girdle and cartopy_normal on it, the girdle has a thousand vertices on each ring; read with up at (0, 0), east at (90, 0) and north at the pole the outer ring lies on the cone of the error axes below the plane and the hole on it above. The ring of cartopy_normal is always the same and surrounds the upward normal at the half width of the errors if south is at the pole; read like the girdle it surrounds the normal with north and south exchanged, which is the normal exactly when that has no northward part. cartopy_normal leaves the fit as it was exactly when its third axis does not point down.", "quantifier": "all fits, keywords, quantile functions and sequences of calls", "why_tests_cant": "all sequences of calls", "anchors": ["attitude/display/cartopy.py:cartopy_girdle", "attitude/display/cartopy.py:cartopy_normal", "attitude/stereonet.py:normal_errors"]}
{"id": "C226", "title": "What stays when layers and plots are drawn again", "statement": "A layer of the stereonet drawn several times holds as many elements as its longest data, each drawn from the first data that had an item at its place; a call shows exactly its data if and only if what was there is the beginning of it, and hands back only the elements beyond that. Before mounting it throws. The rectangular stereonet keeps a drawing of every array it was given after another one, the last being the current; it holds one drawing exactly when the array never changed. The clipped stereonet always holds exactly one drawing, of the last data and clip angle (15 if not given).", "quantifier": "all sequences of calls with any data and groups; all sequences of renders", "why_tests_cant": "all sequences", "anchors": ["frontend/packages/attitude/src/stereonet/index.ts:drawPlanes", "frontend/packages/attitude/src/stereonet/index.ts:drawEllipses", "frontend/packages/plots/src/rectangular.ts:RectangularStereonet", "frontend/packages/plots/src/vertical.ts:VerticalClippedStereonet"]}
{"id": "C227", "title": "Girdle and cone of a reconstructed plane share one map", "statement": "ErrorShell draws its girdle and its cone so that both are read with up at the pole, east at (90, 0) and north at (180, 0): whatever was drawn before, the rings of the girdle have a thousand vertices each on the cone of the error axes, vertex i at the half width of the errors below and above the plane, and vertex i of the cone is at that angle from the upward normal; the cone does not depend on earlier calls. Drawing the cone leaves the caller's axes as they were exactly when the third does not point down. A plane made from strike, dip below 90, rake and two angular errors is not changed by drawing, and all vertices are more than half the smaller and less than the greater error from the normal or the plane; the first is more than half the second error away.", "quantifier": "all orthonormal axes, positive error axes, sequences of calls; all strikes, dips below 90, rakes and errors between 0 and 180", "why_tests_cant": "the two layouts and the in-place change are only visible over sequences of calls and all orientations", "anchors": ["attitude/orientation/reconstructed.py:ErrorShell.cartopy_girdle", "attitude/orientation/reconstructed.py:ErrorShell.cartopy_normal", "attitude/orientation/reconstructed.py:ReconstructedPlane.__init__", "attitude/stereonet.py:normal_errors"]}
{"id": "C228", "title": "The bands of the error comparison cross and one depends on the unit", "statement": "For a fit to points that are not coplanar and statistical axes without zeros, error_comparison draws three bands of half width sqrt(h3*(1+x^2/h2)) at 401 evenly spaced positions, h being the singular values, the sampling axes and the noise axes; for coplanar points it raises LinAlgError, and with do_bootstrap it raises NameError whenever it would otherwise return. With a = z/sqrt(n-2), b = z*sqrt(2/(n-1)) and q the root of the ratio of the third to the second eigenvalue, if b < 1 and 2aq < 1 the noise band is wider than the sampling band at the centre; it contains that band exactly if b-a+ab <= qa(1+b), and otherwise the two cross at exactly one distance. Multiplying the data by k multiplies the two statistical bands by k, but the one labelled variance at the centre by sqrt(k), so it is narrower than the noise band exactly beyond one value of k.", "quantifier": "all point sets, statistics z > 0, window sizes, noise arrays of the right shape, scales k > 0", "why_tests_cant": "the crossing distance and the dependence on the unit need a comparison over all positions, data and scales", "anchors": ["attitude/display/error_comparison.py:error_comparison", "attitude/display/error_comparison.py:bootstrap_ci", "attitude/error/axes.py:statistical_axes", "attitude/display/hyperbola.py:hyperbolic_errors"]}
{"id": "C229", "title": "Plotted directions are not read back by the stereonet helpers", "statement": "stereonet.sph2cart of one plotted direction v returns (-x, -y, z) if it was laid out as the outline of a plane, (-x, y, z) as that of a pole and (-x, -z, -y) in the layout with up at the pole. Of several points, point k comes back as (-x, -y, z) of the cartesian vector of point k+1 with the axes not exchanged, and the last as the first point does alone. quaternion(v, angle) of a unit vector has length one exactly if cos(angle/2) = 0 or cos(angle/2) + sin(angle/2)*(x+y+z) = 0, and is (1, 1, 1) for the angle zero. The squares of scale_errors are the statistic times the variances, and the angles between the scaled axes are the angular errors of the variances at every confidence level.", "quantifier": "all unit vectors, layouts, arrays of any length, angles, positive variances and statistics", "why_tests_cant": "the conversion is right up to a turn for one point and mixes points for arrays; single examples with symmetric points hide it", "anchors": ["attitude/stereonet.py:sph2cart", "attitude/stereonet.py:quaternion", "attitude/stereonet.py:scale_errors"]}
{"id": "C230", "title": "More points and more members", "statement": "Points added to an array, wherever they lie, make no singular value of its fit smaller, and the squared misfits of two parts add up to no more than that of the whole. The squared misfit of a group is at least the sum of those of its members, with equality exactly when the group's normal fits every member as well as the member's own (that they always add up is refuted by two sheets at right angles); it vanishes exactly when the members lie in parallel planes, whose normal is then that of the group; its total scatter is that of its members. Pooled in one plane no singular value is smaller than that of any member. Points repeated at the centre change neither the singular values nor the plane, but lower every eigenvalue, and the angular errors come down to the aspect ratios as if the outcrop had been measured again.", "quantifier": "all arrays, parts, groups of any size, decompositions and quantile functions", "why_tests_cant": "holds for all arrays and all admissible decompositions; tests fit a few planes and never compare a fit with that of a larger array", "anchors": ["attitude/orientation/pca.py:PCAOrientation", "attitude/orientation/grouped.py:GroupedOrientation", "attitude/error/axes.py:noise_covariance"]}
{"id": "C231", "title": "One point far away turns any plane", "statement": "With one more point p the misfit is at most the second singular value of the array without it, and the new plane through the old mean m passes p at a distance of at most sqrt((n+1)/n) times that value; the greatest singular value is at least sqrt(n/(n+1)) |p - m|. So for every outcrop, however large, a single point far enough above or below its centre makes the dip as close to 90 degrees as wanted. The angular error reported along the first axis does not show it: its tangent is at most s2 (1 + 2k) / (sqrt(n/(n+1)) |p - m|) and falls to zero with the distance of the point.", "quantifier": "all arrays, points, distances, decompositions and quantile functions with k = 2Z/sqrt(n-1) at most one half", "why_tests_cant": "a statement about all positions of the point and all outcrops, with a limit", "anchors": ["attitude/orientation/pca.py:PCAOrientation", "attitude/orientation/pca.py:PCAOrientation.angular_errors", "attitude/error/axes.py:noise_covariance", "attitude/orientation/base.py:strike_dip"]}
{"id": "C232", "title": "A changed height takes a regression along, but never further", "statement": "The planes regressed on two sets of heights at the same places are, summed over the points, no further apart in squares than the heights are, and on average by exactly the mean change. If one height changes by delta, the plane changes at that point in the same direction by at least delta/n and at most delta, unlike the fit by principal components, whose plane one point can turn upright.", "quantifier": "all arrays whose places do not share a vertical plane, all changes of heights, all inverse functions within contract", "why_tests_cant": "a test changes a few heights of a few planes; the bounds hold for all", "anchors": ["attitude/orientation/linear/regression.py:Regression", "attitude/orientation/linear/regression.py:Regression.coefficients"]}
{"id": "C233", "title": "One more observation pulls a regression towards it, never all the way", "statement": "A regression that succeeds still succeeds with one more observation anywhere. The plane moves at the new place towards the new height without reaching it: the new residual has the sign of the error of the earlier plane's prediction and is strictly smaller unless the prediction was exact, in which case slopes and plane stay exactly the same. The residual sum of squares grows by the product of the two, so it never decreases. No diagonal entry of the inverse normal matrix grows. The variances reported therefore grow at most by the factor by which the residual sum of squares does, and an observation on the plane widens none of them.", "quantifier": "all arrays whose first r places do not share a vertical plane, all further observations, all inverse functions within contract", "why_tests_cant": "a test adds a few points to a few planes; the bounds hold for all", "anchors": ["attitude/orientation/linear/regression.py:Regression", "attitude/orientation/linear/regression.py:Regression.coefficients", "attitude/orientation/linear/regression.py:Regression.residuals", "attitude/orientation/linear/regression.py:Regression.covariance_matrix"]}
{"id": "C234", "title": "A regression is never steeper than the fit by principal components", "statement": "For the same points the dip of the linear regression is at most the dip of the fit by principal components. It is strictly smaller unless the points are coplanar or the regression is horizontal, so choosing the regression flattens every noisy dipping plane. Each fit is best in its own measure: the squared distances from the fitted plane lie between the regression's squared height errors times the squared cosine of the fit's dip and the same times the squared cosine of the regression's dip.", "quantifier": "all point lists that both fits accept, all SVD and inverse functions within contract", "why_tests_cant": "a test compares the two dips on a few data sets, usually exact planes, where they agree", "anchors": ["attitude/orientation/linear/__init__.py:LinearOrientation", "attitude/orientation/pca.py:PCAOrientation", "attitude/orientation/pca.py:PCAOrientation.strike_dip"]}
{"id": "C235", "title": "How a regression changes with the coordinates", "statement": "If the horizontal coordinates are mapped by any invertible affine map and the heights scaled and sheared, the regression still succeeds, its slopes change by exactly that map and the residual sum of squares by the square of the scale. In particular turning, mirroring and moving the map leaves the dip, and moving it the strike too. Exchanging the vertical with a horizontal axis does not carry one regression into the other (refuted), unlike the fit by principal components.", "quantifier": "all arrays whose places do not share a vertical plane, all affine maps, all inverse functions within contract", "why_tests_cant": "a test turns a few data sets; the identity holds for every map", "anchors": ["attitude/orientation/linear/regression.py:Regression", "attitude/orientation/linear/regression.py:Regression.coefficients", "attitude/orientation/linear/__init__.py:LinearOrientation"]}
{"id": "C236", "title": "The errors of a regression do not shrink when all measurements are repeated", "statement": "Repeating all points of a regression any number of times, in any order, leaves its slopes and its whole covariance matrix, hence all standard errors, exactly as they were, although the standard error of a slope should fall with the square root of the number of measurements (C206, C107). With one copy the order of the points does not matter.", "quantifier": "all lists of points whose places do not share a vertical plane, all numbers of copies, all orders, all inverse functions within contract", "why_tests_cant": "a test compares a few sizes and would accept any errors", "anchors": ["attitude/orientation/linear/regression.py:Regression", "attitude/orientation/linear/regression.py:Regression.coefficients", "attitude/orientation/linear/regression.py:Regression.covariance_matrix"]}
{"id": "C237", "title": "The lines of the aligned residuals figure are always flat", "statement": "aligned_residuals puts seaborn's regression line through both sections of the points in their own axes. Both lines are the axis itself, slope and intercept zero, for every fit, so they say nothing about the data; no other line is as good unless that axis has length zero. Both panels show the same heights and the squared heights add up to the squared third singular value.", "quantifier": "all fits, all SVD functions within contract, all line functions that give the smallest least-squares solution", "why_tests_cant": "a test sees nearly flat lines on a few data sets", "anchors": ["attitude/display/plot/misc.py:aligned_residuals", "attitude/orientation/pca.py:PCAOrientation.rotated"]}
{"id": "C238", "title": "Beds moved against each other share an identifier and hide one another", "statement": "The uid of a fit is a digest of its axes alone, so a bed with the same points moved anywhere has the same uid, whatever the digest: uids are not unique (refuted). Of two such beds in one list the later cannot be reached: no call of disable_orientations disables it and create_groups never picks it, the earlier is taken instead without an error. A group of a single plane has the uid of its member and, being appended after it, is hidden behind it in the same way.", "quantifier": "all fits and their moved copies, all lists and heaps, all sequences of uids, every digest", "why_tests_cant": "a test uses measurements that differ in shape", "anchors": ["attitude/orientation/base.py:hash_array", "attitude/orientation/base.py:BaseOrientation.hash", "attitude/orientation/grouped.py:create_groups", "attitude/orientation/grouped.py:disable_orientations"]}
