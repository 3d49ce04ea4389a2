# Formal model of davenquinn/Attitude - design

Source: `/repo` (read as text only, never built or run).  Prover: Coq 8.16.1, standard library only.
Properties: `properties.jsonl`.  Claims: `MANIFEST.json`.  Wrong-program tests: `seeded/LOG.jsonl`.

## 1. Modelling decisions

| Python / JavaScript | Model |
|---|---|
| `float`, JS number | stdlib real `R`.  Rounding, overflow, signed zeros and NaN payloads are **not** modelled. |
| NaN / inf results | explicit: `option` (`None` = not finite) or the `NonFinite` outcome, never a totalised division. |
| exceptions | explicit outcome type `res A := Ok a \| Raise e \| NonFinite` (`RVec.v`), `e` the Python exception class. |
| `n x 3` array | `list vec3`; 3x3 array: `mat3` (record of three rows). |
| arrays of any dimension (conics, regressions) | `nat -> R`, `nat -> nat -> R` with their sizes passed beside them, read only below the size (`LNum.v`). |
| `numpy.linalg.svd` | *oracle*: a quantified function with hypothesis `is_svd a (u,s,v)` (factorisation, orthonormality, ordering).  That the hypothesis can be met for every array is itself proved (`svd_exists`). |
| `numpy.linalg.inv`, `det` | quantified function with the contract "inverse, or LinAlgError exactly when singular"; the determinant is defined by expansion (`LDet.v`). |
| `scipy.stats.f.ppf`, `chi2.ppf` | quantified functions; what is needed of them (sign, monotonicity) is a hypothesis of the theorem. |
| `sha1` | quantified function, no injectivity unless a hypothesis says so. |
| object identity, aliasing, in-place mutation | explicit heap (`MGroup.v`), state and aliasing flags (`MPca.v`), results paired with the caller's object afterwards (`MFront.v`, `MUi.v`). |
| `mplstereonet.stereonet_math` (`sph2cart`, `cart2sph`, `pole`, `rake`) | source not in the sandbox; written from its published definition: part of the trusted base. |
| `d3-geo` (rotation, `geoAzimuthalEqualArea`) | written from the copy in `frontend/packages/attitude/lib/d3v4+jetpack.js`, longitudes not wrapped: part of the trusted base. |
| rasterio masks and reads, shapely geometry, `subdivide` | quantified inputs. |
| `json.dumps`, `uuid4`, number formatting | quantified strings / `fmt`, `parse` with the contract that parsing inverts printing. |
| unbounded `while` loops | fuel, with a theorem that enough fuel exists and more does not change the result. |

## 2. What is modelled

| model file | source | simplifications |
|---|---|---|
| `MPca.v` | `orientation/pca.py` (constructor, fit, derived quantities), `coordinates/__init__.py:centered` | 3-D data only; array sharing between a fit and its caller only where a property needs it |
| `MAxes.v` | `error/axes.py`, `error/__init__.py`, error accessors of `pca.py` | quantiles are oracles |
| `MSphere.v`, `MRecon.v` | `orientation/reconstructed.py` and the mplstereonet functions it calls | an infinite length is `None` |
| `MGroup.v` | `orientation/grouped.py` | heap of objects; a group whose constructor raised half way is not reachable (`all_live`) |
| `MMapping.v` | every `to_mapping` | opaque user values; key order kept |
| `MStereo.v` | `stereonet.py`, iterative helpers, `error_coords` | repeated levels in one call are not distinguished |
| `MConics.v` | `geom/conics.py`, `geom/util.py`, `geom/vector.py` | contracts for inv and svd |
| `MHyper.v` | `display/hyperbola.py` | an infinite semiaxis is `NonFinite`; the NaN column of the offset is not read; `correct_apparent_dip` unused there |
| `MLinear.v` | `orientation/linear/*`, the parts of `orientation/base.py` they use | |
| `MCoord.v` | `coordinates/*`, closed forms in `error/`, `geom/transform.py` | |
| `MDem.v` | `helpers/dem.py`, `helpers/interpolation.py` | masks, lines and rasters are inputs; empty windows not modelled; `map_coordinates(order=1, mode="nearest")` is clamping and linear interpolation |
| `MText.v` | `display/nbextension.py`, `test/io.py` | text is UTF-16 units; only lower-case `</script` considered; universal newlines not modelled |
| `MFront.v` | `frontend/packages/attitude/src/{math,functions,hyperbola,util,reconstruct}.ts` | option defaults are filled in by the caller; d3.geoContains an oracle; the axes of `reconstructErrors` an oracle (its versor modules are not in the repository); `hyperbolicErrors` with the identity for `axes`, three-point outlines |
| `MUi.v` | `frontend/packages/webapp/src/{sheet,app}.ts` (rows, edits, orientations), `notebook-ui/src/index.ts` and `components/{list,side-view}.ts` (selection, hovering, scales), `attitude/src/stereonet/interaction.ts` (dragging), opacities of `stereonet/index.ts` and `plots/src/vertical.ts`, labels of `plots/src/graticule-labels.ts` | parsing of text and validity of colours oracles; react rendering, DOM and d3 drawing not modelled; the exponent of d3's power scale is quantified |
| `MShape.v` | quadrics of a fit (`pca.py:as_conic`, `as_hyperbola`, `_ellipse`, `error_ellipse`), `geom/__init__.py` (comparison of fits), `error/__init__.py:asymptotes`, coefficients of `test_pca_regression_variable` | only the noise covariance in `as_conic`, `as_hyperbola`; the SVD of a 3 x 3 matrix is the oracle on its rows |
| `MParam.v` | `display/parametric.py` | a secant of a right angle is `NonFinite` (with floats it is about 1e16); what is handed to matplotlib, not how it is drawn |
| `MFigures.v` | numbers behind `display/polar.py`, `pca_aligned.py`, the window of `error_comparison.py`, `plot/cov_types/regressions.py`, `misc.py:percentiles`, `ci`, `simple_hyperbola` of the tests | matplotlib calls dropped; drawn indices and noise are arbitrary functions; scipy's `scoreatpercentile` from its published definition |
| `MBingham.v` | `bingham.py` | `gamma` (recurrence and positivity only) and `hyp1f1` are oracles; for arrays of coordinates only the shape of the result |
| `MPlot.v` | `error_ellipse` of `orientation/base.py`, `display/plot/__init__.py` | a drawing is the list of patches or points handed to matplotlib; patches added before an exception are not kept |
| `MNet.v` | `frontend/packages/attitude/src/stereonet/{index,vertical,horizontal,labels}.ts`, `notebook-ui/src/components/{stereonet,data-panel}.ts` | the state of the stereonet object, not the SVG; d3's rotation and azimuthal equal-area projection, with their inverses, from the bundled source; clipping is a setting, not carried out; props are compared by identity |
| `MAgree.v` | the mapping of `attitude/orientation/base.py` as read by `functions.ts:createGroupedPlane`; inputs of `frontend/packages/attitude/test/test-runner.py` | JSON as a faithful copy of numbers, null for NaN |
| `MSide.v` | `frontend/packages/attitude/src/hyperbola.ts` (placing, traces, settings, `PlaneData`), `notebook-ui/src/components/side-view.ts` (elements, azimuth, hovering) | an SVG transform is the affine map it denotes; scales are linear; d3's join by position and stable sort written out; colours, opacities and gradients dropped |
| `MAxes2.v` | `attitude/error/axes.py` (`jolliffe_axes`, `regression_axes`, keywords of `hyperbolic_axes`, `statistical_axes`) | quantile functions and the matrix inverse are oracles; keyword values are numbers, booleans or strings; which exception comes first is not observable, all are caught |
| `MEncode.v` | `attitude/display/util.py` (`encode`), with `base64.b64encode` and `urllib.parse.quote` written out | what `savefig` writes is any list of bytes |
| `MSymbolic.v` | `attitude/geom/symbolic_math.py` | entries are numbers, not symbols; sympy's inverse is an oracle |
| `MFloat.v` | `attitude/coordinates/__init__.py:centered` and the SVD of `pca.py` in floating point | each operation has a relative error; overflow and underflow left out; the computed singular values and axes are those of an array near the argument (LAPACK's backward stability), the axes exactly orthonormal; the only file where rounding is modelled |
| `M2d.v` | `attitude/orientation/pca.py:PCAOrientation` and the errors of `error/axes.py` for arrays with two columns | no weights or saved axes; the cross product of a number and a vector raises a ValueError |
| `MBhat.v` | `attitude/__dustbin/statistical_distances.py` | the inverse is an oracle |
| `MScript.v` | `frontend/packages/notebook-ui/test/process-onis-planes.py:40-73` | a mapping is its uid and height; the colour map is the position in it; reading of files dropped |
| `MDem2.v` | `helpers/dem.py:extract_shape`, `helpers/interpolation.py` with gaps | shapely's area is the shoelace sum of the rings; masked pixels are NaN; sampling of the line is an input |
| `MBand.v` | `display/hyperbola.py:204-249` (class `HyperbolicErrors`) | the axes object is the list of polygons and lines added; the call of `hyperbolic_errors` inside a method is given by its result; keywords other than colours dropped |
| `MShadow.v` | `geom/conics.py:angle_subtended` in two dimensions, `geom/test_offset_ellipse.py` | the slice of an ellipse by a line is a conic of dimension one; its svd is an oracle within contract |
| `MTests.v` | `orientation/tests.py` (direction tests) | exact arithmetic; names of cases dropped |
| `MGrat.v` | `stereonet/index.ts` (setGraticule), d3's graticule, `graticule-labels.ts` | drawing, path parsing and intersection are oracles |
| `MScatter.v` | `test/__init__.py` (make_plane, randomize, random planes), `pca.py` (random_pca) | random numbers are oracles |
| `MGram.v` | `pca.py` (axis_transform, the function covariance_matrix) | exact arithmetic |
| `MReport.v` | `__dustbin/__report/__init__.py` (distance_from_group, the distances of report), `geom/util.py` (unit_vector) | templates and figures left out; the file itself cannot be imported |
| `MPage.v` | `notebook-ui/src/index.ts` (AttitudeUI), `components/list.ts` (render, selectionText), `components/stereonet.ts` (componentDidMount, componentDidUpdate) | one step per event: React batches and the delays of D3 are left out; equality of arrays is by identity, given by numbers; the constructor, which uses `this` before super, is taken to succeed |
| `MChecks.v` | `attitude/orientation/test_reconstructed.py` | the random plane is an arbitrary array; NaN fails every comparison |
| `MProject.v` | `geom/test_hyperbolic_errors.py` (test_hyperbolic_projection, test_minimum_variation), `display/test_hyperbolic_errors.py` (test_dual_conic) | axes, positions and angle are arbitrary instead of those of the tests; comparisons are exact |
| `MMap.v` | `display/cartopy.py` | shapely and cartopy left out: a polygon is its rings of vertices; each call is made even if an earlier one failed |
| `MJoin.v` | `stereonet/index.ts` (drawPlanes, drawEllipses), `plots/src/{rectangular,vertical}.ts` | an element is the item it was drawn from; React runs an effect after every render whose dependencies changed; arrays are not changed in place; what covers what is left out |
| `MShell.v` | `orientation/reconstructed.py` (ErrorShell) | as `MMap.v`; a shell is its axes, shared with the caller, and a diagonal covariance |
| `MErrcmp.v` | `display/error_comparison.py` | labels, colours and the percentiles after the bootstrap dropped; NaN axes are `NonFinite` |
| `MHelpers.v` | `stereonet.py` (sph2cart, quaternion, scale_errors) | longitudes and latitudes are arrays of one length |
| `MResid.v` | `display/plot/misc.py` (aligned_residuals) | seaborn's regplot is an oracle for its line; its shaded band, titles and spines left out |

Not modelled: matplotlib, cartopy and shapely drawing, IPython display, DOM manipulation, d3
paths and clipping, the distribution of random numbers, floating-point error outside `MFloat.v`,
logging and printing.

## 3. File layout (`rocq/theories`)

* library: `RVec.v` (vectors, outcomes, list sums), `Trig.v` (atan2, degrees), `LNum.v` (arrays of any size).
* model `M*.v`: one Gallina definition per function, each citing file:lines.
* specification `Spec*.v`: small independent vocabulary (distance to a plane, sample variance,
  geological right-hand rule, pole and polar, cones, ...) that does not mention the model.
* lemmas `L*.v`, and `P*.v`: `Theorem Cxx_...`, each property with an `Example` meeting the
  hypotheses, and `Print Assumptions` at the end of the file.
* `..._refuted` theorems show, with a witness, a plausible claim that is false of the code.

Proof methods, by group of properties:

| property | files | method |
|---|---|---|
| C01-C26, C89 | `MPca`, `LSvd`, `LPca`, `LFit*`, `PPca` | expansion in the orthonormal basis V, Parseval; singular values characterised variationally; invariants over call histories |
| C27-C37, C90, C91 | `MAxes`, `PAxes` | real inequalities |
| C38-C42, C92 | `MRecon`, `PRecon` | trigonometric identities, uniqueness of angles |
| C43-C53, C93-C95 | `MGroup`, `MMapping`, `PGroup*`, `PMapping` | heap frame lemmas, induction over lists |
| C54-C59, C96-C101 | `MStereo`, `PStereo` | pointwise algebra, direction of a spherical coordinate |
| C60-C73, C102, C103 | `MConics`, `LConics`, `LDet`, `LSlice`, `LPlane`, `PConics*` | matrix algebra in any dimension |
| C74-C77, C104-C106 | `MHyper`, `PHyper*` | cosh/arcsinh, square roots |
| C78-C80, C107, C108 | `MLinear`, `PLinear` | normal equations |
| C81-C83, C109-C111 | `MCoord`, `PCoord` | trigonometry |
| C84-C86, C112, C113 | `MDem`, `PDem` | list induction, interpolation algebra |
| C87, C88, C114 | `MText`, `PText` | list induction |
| C115-C126 | `MFront`, `PFront*` | directions of plotted points, cones and their duals |
| C127-C135 | `MUi`, `SpecUi`, `PUi*` | last write per cell, parity of clicks, clamping, compass azimuth |
| C136-C143 | `MShape`, `PShape*`, `PCompare` | values of quadrics in the frame of the axes, normal equations, spherical triangle inequality, kernels of 3 x 3 matrices |
| C144-C148 | `MParam`, `SpecParam`, `PParam*` | position of the extreme of a tangent on a grid, tangency as a double root, foci |
| C149-C158 | `MFigures`, `PFigures*` | direction of a polar coordinate, Euclidean division, extremes of centred data, monotonicity of a broken line |
| C159-C161 | `MBingham`, `PBingham*` | Parseval, shapes of numpy products, termwise bounds of a double series |
| C162-C166 | `MPlot`, `PPlot*` | directions of plotted points, eigenvectors of a 2 x 2 covariance |
| C167-C175 | `MNet`, `SpecNet`, `PNet*` | orthonormal frames, half-angle formulas, induction on sequences of calls |
| C176-C180 | `MAgree`, `PAgree*` | both models against one cone in plane coordinates |
| C181 | `MNet`, `PNet4` | the inverse projection composed with C167 |
| C182-C189 | `MSide`, `SpecSide`, `PSide`, `PSide2` | the matrix of a quaternion about the vertical, induction on calls and views, insertion sort |
| C190, C191 | `SpecEquiv`, `PEquiv` | second moments determine the quadratic form of the cone; uniqueness of the SVD up to ties |
| C192-C195 | `MAxes2`, `SpecAxes2`, `PAxes2` | the Gram matrix in the principal frame is diagonal; case analysis on keywords |
| C196 | `MEncode`, `SpecEncode`, `PEncode` | induction by three bytes, bits of quotients, decoding relations |
| C197 | `MSymbolic`, `SpecSymbolic`, `PSymbolic` | Cauchy's inequality |
| C198, C199 | `SpecStable`, `LStable`, `PStable` | Cauchy's inequality; min-max principle (Weyl); off-diagonal terms of the cross-product matrix (Wedin) |
| C200 | `MFloat`, `PFloat` | induction on the order of summation, composed with C198 and C199 |
| C201 | `M2d`, `Spec2d`, `P2d` | moments in the orthonormal frame of the axes |
| C202 | `MBhat`, `SpecBhat`, `PBhat` | logarithm laws, arithmetic and geometric means |
| C203 | `MScript`, `PScript` | integer parts, extremes of a list |
| C204-C205 | `MAxes`, `SpecRatio`, `PRatio` | closed form of the folded axes, Lipschitz bound on the ratio |
| C206 | `MLinear`, `SpecStat`, `PStat` | finite distributions, Gauss-Markov by completing the rule |
| C207 | `MDem2`, `PDem2` | shoelace sums, cases on gaps |
| C208 | `MBand`, `SpecBand`, `PBand` | induction on the history of calls; shoelace sum in a rotated frame |
| C209 | `MShadow`, `SpecShadow`, `PShadow` | tangent lines by discriminant, explicit Hessian form of the polar |
| C210 | `SpecRepeat`, `PRepeat` | scatter of repeated data; bounds on the closed form of C204 |
| C211 | `MTests`, `PTests` | optimality of C01 for a plane through all points, parallel unit vectors |
| C212 | `SpecNoise`, `PNoise` | second moments; the fit beats the regression in the frame of the true plane |
| C213 | `MGrat`, `SpecGrat`, `PGrat` | ceilings and remainders of reals, sorted sequences |
| C214 | `MScatter`, `SpecScatter`, `PScatter` | second moments with unequal variances |
| C215 | `MGram`, `PGram` | products survive orthonormal maps |
| C216 | `PLength` | closed form of the third hyperbolic axis |
| C217 | `PDual` | determinant of a matrix plus a product of column and row |
| C218 | `PDual` | sums of the entries of a translated quadric |
| C219 | `PDual` | entries of the slice |
| C220 | `MReport`, `PReport` | mirror image of atan2, decomposition with the first axis reversed |
| C221 | `MPage`, `SpecPage`, `PPage` | invariant over sequences of events, with C173 for the hovered layer |
| C222 | `MPage`, `SpecPage`, `PPage` | JSON grammar as inductive relation, lengths |
| C223 | `MChecks`, `PChecks` | C38–C40 and C92 for the reconstruction, values of the two covariances |
| C224 | `MProject`, `PProject` | entries of the dual and the slice, the upper branch determines its ordinate |
| C225 | `MMap`, `PMap` | the axes change at most to the other direction (`run_axes`); C176 for the cone |
| C226 | `MJoin`, `PJoin` | induction over calls; join by position; `repeats` for renders |
| C227 | `MShell`, `PShell` | as C225; bounds of the half width between the two axes |
| C228 | `MErrcmp`, `PErrcmp` | bands as roots of linear functions of x^2; composed with C08 |
| C229 | `MHelpers`, `PHelpers` | positions in a rolled list |
| C230 | `PMore` | Courant-Fischer with a direction common to two planes; scatter about the own mean is least |
| C231 | `POutlier` | scatter with one more point, a direction normal to it and to the first axis |
| C232 | `PLever` | residuals orthogonal to differences of planes |
| C233 | `PPress` | residuals of both fits orthogonal to the difference of the planes |
| C234 | `PSteep` | each fit is best in its own measure; equality makes the normal an eigenvector with no horizontal part |
| C235 | `PAffine` | sums of squares correspond, uniqueness of the minimum |
| C236 | `PRepeat2` | sums over copies; inverse of a multiple |
| C237 | `MResid`, `PResid` | principal components are uncorrelated; the smallest least-squares line exists |
| C238 | `PUid` | translation invariance of the axes; the first match in a list |

## 4. Trusted base

* Coq 8.16.1 kernel (`coqc`).  No `vm_compute`/`native_compute`-only results, no kernel switches, no plugins.
* Axioms: those of the standard library's real numbers and classical logic, listed in section 5.
* The correspondence between model and code, by the comments citing file and lines.
* The contracts of the oracles in section 1, mplstereonet's functions as written in `MSphere.v`,
  d3's projection as written in `MNet.v`.

## 5. Assumptions per theorem

As listed by `Print Assumptions` (also at the end of every `P*.v`):

* **no axioms** (closed under the global context) - 56 theorems:
  C85_bounding_box, C87_element, C87_entries, C87_json, C87_placeholder_refuted, C87_script_end_refuted, C87_string, C87_text, C88_nothing_lost, C88_split, C114_round_trip, C114_several_refuted, C114_single_row_refuted, C121_needs_global, C122_surface, C122_twice_refuted, C127_plotted, C127_rows, C129_defined, C129_round_trip, C130_toggle, C130_twice, C131_group, C131_list, C131_lit, C131_single, C158_resampled, C160_grid_refuted, C160_shapes, C173_always, C173_center, C173_mount_refuted, C173_null_refuted, C173_switches, C173_update, C189_left_refuted, C189_lit, C196_decodes, C196_injective, C208_colours, C208_made, C221_all, C221_click, C221_frozen, C221_hovered, C221_redrawn, C221_refuted, C221_stuck, C221_values, C222_distinct, C222_distinct_refuted, C222_json, C226_again, C226_current, C226_layers, C226_rectangular
* `ClassicalDedekindReals.sig_forall_dec` - 8 theorems:
  C50_failed_disable, C52_disabled, C151_regular, C151_thinned, C185_settings, C188_mean_refuted, C208_patches, C208_raises
* `ClassicalDedekindReals.sig_forall_dec`, `FunctionalExtensionality.functional_extensionality_dep` - 108 theorems:
  C04_centering, C04_differences, C33_duality, C34_mean, C60_center, C60_translate, C61_compose, C61_identity, C61_transform, C62_center, C63_pole_polar, C63_reciprocal, C64_contravariant, C64_involution, C64_tangent_planes, C66_tangent, C68_only_on_axes, C70_elliptical, C71_parity, C71_planar, C72_axes, C72_squares, C74_hyperboloid, C80_columns, C84_clean, C86_extract, C86_no_duplicates, C110_bounds, C110_reciprocal, C110_round_trip, C112_positions, C113_bilinear, C113_edge_refuted, C113_interior, C113_plane, C113_window, C120_clone, C120_levels, C120_zero_refuted, C121_average, C121_extrema, C122_axes, C122_no_axes, C128_changes, C128_finalize, C128_outside, C129_ordered, C132_drag, C132_idle, C132_latitude, C132_released, C133_ellipse, C133_negative_refuted, C134_north_refuted, C155_first, C157_affine, C157_interval, C157_percentile, C157_value, C158_interval, C158_mean, C158_noise, C161_single, C161_symmetric, C172_anchor, C175_missing_refuted, C175_recorded, C175_shown, C185_polygon, C185_refuted, C186_first, C186_order, C186_refuted, C186_steady, C188_data, C197_agree, C200_centered, C200_size, C201_calls, C201_explained, C201_line, C201_residuals, C201_two_points_refuted, C203_colours, C203_empty, C203_order, C206_best, C206_covariance, C206_unbiased, C207_crossed_refuted, C207_flat, C207_line_gaps, C207_line_valid, C207_polygon, C207_triangle, C213_chosen, C213_dips, C213_even, C213_extent, C213_labels, C213_lines, C213_points, C214_points, C217_kind, C217_viewpoint, C224_linspace, C226_vertical, C233_design
* `ClassicalDedekindReals.sig_forall_dec`, `ClassicalDedekindReals.sig_not_dec`, `FunctionalExtensionality.functional_extensionality_dep` - 192 theorems:
  C01_total_least_squares, C01_unique_when_gap, C02_residual_sum, C02_residual_vectors, C03_translation, C05_too_few_points, C06_row_order, C07_rotation, C08_scale, C09_normal, C09_normal_unweighted, C10_dip_dr, C12_spec_sanity, C17_despinning, C18_eigenvalues_are_variances, C19_greatest_variance, C20_reconstruction, C20_reloaded, C22_exact_planes_do_not_reload, C23_uniform_weights, C24_reconstruction_refuted, C24_sorted_refuted, C24_weighted, C26_identifier, C26_other_calls, C27_hyperbolic_axes, C32_folding, C34_decreases_with_n, C34_noise_covariance, C35_dof_only_in_statistic, C35_noise_ignores_dof, C36_explained_variance, C37_explained_variance_bounds, C43_centre, C44_parallel_planes, C44_same_plane, C45_fits, C45_links, C45_result, C46_nothing_dropped, C46_only_unknown, C46_unknown, C47_untouched, C48_only_parents, C48_witness, C49_copies_not_rejected, C49_one_call, C49_rejected, C49_two_calls, C50_failed_fit, C50_failed_group, C51_never_nested, C51_no_group_members, C65_default, C65_value, C66_projection, C67_perpendicular, C67_vector, C68_vector, C69_offset, C73_cyclic_refuted, C73_plane, C73_rows, C73_sorted, C74_oblique_refuted, C76_angle, C76_rotation, C77_even, C77_sign_lost, C89_cached_U_is_stale, C93_link_kept_iff, C93_relink_refuted, C103_plane_slice, C111_contour, C111_full_turn, C111_rotate, C117_zero_error, C119_convolve, C119_deconvolve, C119_inverse_refuted, C119_transposed, C135_horizontal_refuted, C135_sideways, C135_view, C136_ellipsoid, C136_level_shrinks, C138_error_surface_refuted, C138_hyperboloid, C139_asymptotic_iff, C139_centre, C139_cone, C139_test_refuted, C140_tls, C140_vertical, C142_repeat, C142_scale, C142_self, C142_zero, C143_aligned, C144_ellipse, C144_hyperbola, C145_sideways_refuted, C146_asymptotes, C146_choices, C146_tangent, C147_ellipse_foci, C147_hyperbola_foci, C147_inverse_hyperbola, C148_window, C149_pole, C150_heights, C152_height, C152_residual, C156_band, C156_bottom_refuted, C156_simple, C156_unasserted, C159_axial, C159_value, C160_grid, C161_arguments, C161_converges, C161_equal_axes, C161_increasing, C168_clip, C168_clip_refuted, C168_getters, C168_mounted, C168_never_unclipped, C168_rectangular, C168_scale_refuted, C168_zero, C170_dip, C170_labels, C172_center, C172_installed, C177_cones, C178_layout, C179_deconvolved, C179_degenerate, C182_axes, C182_places, C182_view, C183_digitized, C187_net, C187_net_refuted, C188_drawn, C192_axes, C192_line, C192_plane, C193_scaled, C194_confidence, C194_wrong_side, C195_known, C195_reconstructed, C195_unknown, C197_distance, C197_ellipsoid, C197_level, C198_mean, C198_singular, C199_normal, C204_bounds, C210_repeated, C212_along, C212_average, C212_extremes, C212_noise, C214_average, C214_far, C214_noise, C214_random_pca, C215_axis_transform, C215_products, C215_turned, C217_axes, C218_moved, C218_unit, C219_cut, C219_test, C224_dual, C228_crossing, C229_arrays, C229_quaternion, C230_centre, C230_exact, C230_group, C230_more, C230_parts, C230_pooled, C231_turned, C237_flat
* `ClassicalDedekindReals.sig_forall_dec`, `Classical_Prop.classic`, `FunctionalExtensionality.functional_extensionality_dep` - 14 theorems:
  C78_defined, C78_least_squares, C78_residuals, C79_coefficients, C80_exact_plane_lost, C107_covariance, C120_single, C232_contraction, C232_leverage, C233_added, C233_errors, C235_affine, C235_exchange_refuted, C236_repeated
* `ClassicalDedekindReals.sig_forall_dec`, `ClassicalDedekindReals.sig_not_dec`, `Classical_Prop.classic`, `FunctionalExtensionality.functional_extensionality_dep` - 279 theorems:
  C03_observables, C06_errors, C07_errors, C08_errors, C11_strike_dip_range, C12_strike_dip_plane, C13_any_two_decompositions, C13_negated_axis, C13_sign_independent, C14_dip_direction, C15_gradient, C16_rake, C16_rake_sign, C21_errors, C21_saved_axes_round_trip, C25_calls_keep_geometry, C28_angular_errors_range, C28_fit, C28_monotone, C29_ordered_when_well_defined, C30_exact_ordering, C30_order_refuted, C31_confidence_monotone, C32_smaller_error_refuted, C33_complementary, C34_errors_decrease, C38_reconstructed_axes, C38_round_trip, C39_plane_recovered, C40_axes_recovered_iff, C40_mirrored_refuted, C40_one_sign_only, C41_reports_arguments, C42_errors_swapped, C42_values_differ, C43_offsets, C53_precedence, C54_agree, C54_level, C54_unknown_sheet, C55_differ, C55_swapped, C56_agree, C57_antipodal, C57_count, C57_sheets, C58_dual, C59_level_ignored, C59_monotone, C74_band, C74_narrowest, C75_asymptotes, C79_angles, C79_methods_agree, C81_axes, C81_cartesian, C81_round_trip, C82_layout, C82_swap, C82_three_points_refuted, C83_defined, C83_not_mapping, C83_not_rotation, C90_francq_ordered, C90_sampling_ordered, C91_babamoradi_level, C92_left_handed, C94_after_failed_group, C94_export_fails_iff, C94_unexportable_state, C95_references_closed, C96_constant_ellipse, C96_too_few, C97_girdle_width, C98_girdle, C98_pole, C98_raw_inconsistent, C99_girdle_shifted, C99_turns_axes, C100_polar_iff, C101_coords, C101_default, C101_too_few, C102_order, C102_sphere, C104_needs_axes, C104_values, C105_zero_axis, C106_last_point, C106_mean_twice, C106_off_hyperbola, C107_standard_errors, C108_errors_defined, C108_errors_value, C108_rotated_covariance, C108_rotated_covariance_refuted, C109_handedness, C109_matrix_differs, C115_count, C115_on_ellipse, C115_points, C115_ring_refuted, C115_symmetric, C116_combined, C116_count, C116_girdle, C116_negative_lengths, C116_unknown_sheet, C117_band, C118_count, C118_finite, C118_polar, C118_tangent, C120_zero_drawn, C123_fix_angle, C124_apparent, C124_dip, C125_trace, C126_bounds, C126_cone, C126_outline, C126_section, C126_section_refuted, C133_opacity, C134_label, C137_raises, C141_angle, C141_sign_refuted, C142_self_refuted, C142_symmetric_refuted, C143_symmetric_refuted, C145_apart, C145_odd_refuted, C149_again, C149_cone, C149_fit, C149_vertex, C150_upside_down_refuted, C152_label_refuted, C153_angle, C153_fit, C153_opening, C154_long, C154_short_refuted, C155_window_refuted, C156_projection, C159_peak, C159_pole_iff, C159_pole_refuted, C160_cover, C162_centre, C162_misplaced, C162_vertex, C163_contour, C163_contour_refuted, C164_figure, C164_pca, C164_spherical, C165_defaults, C165_left, C165_never, C165_opacity, C165_pca, C166_fit, C166_noise, C166_pole, C167_antipode, C167_area, C167_injective, C167_lambert, C167_vector, C169_fits, C169_fits_refuted, C169_outline, C170_sides, C170_vertical, C170_vertical_refuted, C171_opposite, C171_some_shown, C172_button_refuted, C172_rotate, C174_max_refuted, C174_settings, C176_nominal, C176_same_cone, C176_vertical_refuted, C177_never_equal, C178_same_cone, C178_traditional_refuted, C180_fit, C180_missing, C180_reconstructed, C181_centre, C181_disc, C181_frame, C181_read_back, C183_refuted, C183_trace, C183_where, C184_line, C184_polygon, C185_mask, C187_label, C190_rotated, C190_scaled, C190_shuffled, C190_tie_refuted, C191_mirrored, C191_turned, C193_unit_refuted, C195_level_refuted, C199_strike_dip, C199_tie_refuted, C200_fit, C201_angle, C202_distance, C202_positive_refuted, C202_sign, C202_value, C203_degrees_refuted, C204_closed, C204_right_angle, C204_scale, C205_stable, C208_outline, C209_shadow, C209_shift, C209_subtended, C209_test_refuted, C210_floor, C210_limit, C210_rate, C211_cases, C211_compares, C211_flat, C211_passes, C211_three_points, C211_vertical, C216_agrees, C216_units, C216_value, C220_angle, C220_parallel, C220_report, C220_sign, C223_axes_pass, C223_axes_right, C223_axes_up, C223_fails, C223_nominal, C223_rake, C224_compare, C224_minimum, C224_project, C225_cone, C225_girdle, C225_left_behind, C225_mirrored, C227_caller, C227_cone, C227_girdle, C227_reconstructed, C228_bootstrap, C228_drawn, C228_exact, C228_units, C229_scale, C229_single, C230_centre_error, C230_sum_refuted, C231_confident, C231_dip, C231_vertical, C234_measures, C234_steeper, C235_dip, C238_hidden, C238_single_group, C238_unique_refuted
